(** Python dictionaries as association lists in insertion order.  [d[k] = v]
    replaces in place or appends, [del d[k]] removes. *)
From Verif Require Import Base.

Definition dict (K V : Type) := list (K * V).

Fixpoint dget {K V} (eqb : K -> K -> bool) (d : dict K V) (k : K) : option V :=
  match d with
  | [] => None
  | (k', v) :: t => if eqb k k' then Some v else dget eqb t k
  end.
Fixpoint dset {K V} (eqb : K -> K -> bool) (d : dict K V) (k : K) (v : V) : dict K V :=
  match d with
  | [] => [(k, v)]
  | (k', v') :: t => if eqb k k' then (k', v) :: t else (k', v') :: dset eqb t k v
  end.
Fixpoint ddel {K V} (eqb : K -> K -> bool) (d : dict K V) (k : K) : dict K V :=
  match d with
  | [] => []
  | (k', v') :: t => if eqb k k' then ddel eqb t k else (k', v') :: ddel eqb t k
  end.
Definition dkeys {K V} (d : dict K V) : list K := map fst d.

(** An equality test that decides equality. *)
Definition decides {K} (eqb : K -> K -> bool) : Prop := forall a b, eqb a b = true <-> a = b.

Lemma decides_refl : forall K (e : K -> K -> bool), decides e -> forall a, e a a = true.
Proof. intros K e D a. apply D. reflexivity. Qed.
Lemma decides_neq : forall K (e : K -> K -> bool), decides e -> forall a b, a <> b -> e a b = false.
Proof. intros K e D a b N. destruct (e a b) eqn:E; auto. apply D in E. contradiction. Qed.
Lemma decides_Z : decides Z.eqb.
Proof. intros a b. apply Z.eqb_eq. Qed.
Lemma decides_leqb : decides leqb.
Proof. intros a b. apply leqb_eq. Qed.

Section Lemmas.
Context {K V : Type} (e : K -> K -> bool) (D : decides e).

Lemma dget_dset_same : forall (d : dict K V) k v, dget e (dset e d k v) k = Some v.
Proof.
  induction d as [|[k' v'] d IH]; intros k v; cbn [dset].
  - cbn [dget]. rewrite decides_refl; auto.
  - destruct (e k k') eqn:E; cbn [dget]; rewrite E; auto.
Qed.
Lemma dget_dset_other : forall (d : dict K V) k k2 v, k2 <> k -> dget e (dset e d k v) k2 = dget e d k2.
Proof.
  induction d as [|[k' v'] d IH]; intros k k2 v N; cbn [dset].
  - cbn [dget]. rewrite (decides_neq _ e D k2 k); auto.
  - destruct (e k k') eqn:E; cbn [dget].
    + apply D in E. subst k'. rewrite (decides_neq _ e D k2 k); auto.
    + rewrite IH; auto.
Qed.
Lemma dget_dset : forall (d : dict K V) k k2 v, dget e (dset e d k v) k2 = if e k2 k then Some v else dget e d k2.
Proof.
  intros. destruct (e k2 k) eqn:E.
  - apply D in E. subst. apply dget_dset_same.
  - apply dget_dset_other. intros ->. rewrite decides_refl in E; auto. discriminate.
Qed.
Lemma dget_ddel_same : forall (d : dict K V) k, dget e (ddel e d k) k = None.
Proof.
  induction d as [|[k' v'] d IH]; intros k; cbn [ddel dget]; auto.
  destruct (e k k') eqn:E; auto. cbn [dget]. rewrite E. auto.
Qed.
Lemma dget_ddel_other : forall (d : dict K V) k k2, k2 <> k -> dget e (ddel e d k) k2 = dget e d k2.
Proof.
  induction d as [|[k' v'] d IH]; intros k k2 N; cbn [ddel dget]; auto.
  destruct (e k k') eqn:E.
  - apply D in E. subst k'. rewrite (decides_neq _ e D k2 k); auto.
  - cbn [dget]. rewrite IH; auto.
Qed.
Lemma dget_ddel : forall (d : dict K V) k k2, dget e (ddel e d k) k2 = if e k2 k then None else dget e d k2.
Proof.
  intros. destruct (e k2 k) eqn:E.
  - apply D in E. subst. apply dget_ddel_same.
  - apply dget_ddel_other. intros ->. rewrite decides_refl in E; auto. discriminate.
Qed.
Lemma dget_in : forall (d : dict K V) k v, dget e d k = Some v -> In (k, v) d.
Proof.
  induction d as [|[k' v'] d IH]; intros k v H; cbn [dget] in H; [discriminate|].
  destruct (e k k') eqn:E; [|right; auto]. apply D in E. injection H as <-. subst. left. reflexivity.
Qed.
Lemma dget_none : forall (d : dict K V) k, dget e d k = None <-> ~ In k (dkeys d).
Proof.
  induction d as [|[k' v'] d IH]; intros k; cbn [dget dkeys map fst In]; [tauto|].
  destruct (e k k') eqn:E.
  - apply D in E. subst. split; [discriminate|]. intros H. exfalso. auto.
  - fold (dkeys d). rewrite IH. split; [|tauto]. intros H [->|H2]; auto. rewrite decides_refl in E; auto. discriminate.
Qed.
Lemma in_dget : forall (d : dict K V) k v, NoDup (dkeys d) -> In (k, v) d -> dget e d k = Some v.
Proof.
  induction d as [|[k' v'] d IH]; intros k v N H; [destruct H|]. cbn [dkeys map fst] in N. inversion N; subst.
  cbn [dget]. destruct H as [H|H].
  - injection H as -> ->. rewrite decides_refl; auto.
  - rewrite (decides_neq _ e D k k'); auto. intros ->. apply H2. apply (in_map fst) in H. exact H.
Qed.
Lemma dkeys_dset : forall (d : dict K V) k v x, In x (dkeys (dset e d k v)) <-> x = k \/ In x (dkeys d).
Proof.
  induction d as [|[k' v'] d IH]; intros k v x; cbn [dset].
  - cbn. intuition.
  - destruct (e k k') eqn:E.
    + apply D in E. subst. cbn. intuition.
    + cbn [dkeys map fst In]. fold (dkeys (dset e d k v)) (dkeys d). rewrite IH. tauto.
Qed.
Lemma NoDup_dset : forall (d : dict K V) k v, NoDup (dkeys d) -> NoDup (dkeys (dset e d k v)).
Proof.
  induction d as [|[k' v'] d IH]; intros k v N; cbn [dset].
  - cbn. repeat constructor. auto.
  - cbn [dkeys map fst] in N. inversion N; subst. destruct (e k k') eqn:E.
    + cbn. constructor; auto.
    + cbn [dkeys map fst]. constructor; [|apply IH; auto]. fold (dkeys (dset e d k v)). rewrite dkeys_dset.
      intros [->|H]; auto. rewrite decides_refl in E; auto. discriminate.
Qed.
Lemma dkeys_ddel : forall (d : dict K V) k x, In x (dkeys (ddel e d k)) <-> x <> k /\ In x (dkeys d).
Proof.
  induction d as [|[k' v'] d IH]; intros k x; cbn [ddel].
  - cbn. tauto.
  - destruct (e k k') eqn:E.
    + apply D in E. subst. rewrite IH. cbn. split; [tauto|]. intros [N [->|H]]; [contradiction|auto].
    + cbn [dkeys map fst In]. fold (dkeys (ddel e d k)) (dkeys d). rewrite IH. split; [|tauto].
      intros [->|H]; [|tauto]. split; auto. intros ->. rewrite decides_refl in E; auto. discriminate.
Qed.
Lemma NoDup_ddel : forall (d : dict K V) k, NoDup (dkeys d) -> NoDup (dkeys (ddel e d k)).
Proof.
  induction d as [|[k' v'] d IH]; intros k N; cbn [ddel]; auto.
  cbn [dkeys map fst] in N. inversion N; subst. destruct (e k k'); auto.
  cbn [dkeys map fst]. constructor; [|apply IH; auto]. fold (dkeys (ddel e d k)). rewrite dkeys_ddel.
  intros [_ H]. auto.
Qed.
End Lemmas.
