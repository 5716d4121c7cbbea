(** C80: the mapper's database keeps a record of every node, finds the node of a name,
    and its file is whole at all times; where it falls short. *)
From Verif Require Import Base MapDbModel.

(** * Histories *)
(** The database after reading the file (of nodes with different addresses), records of
    the database server (they have names) and what scans do. *)
Inductive reach : mapdb -> Prop :=
| r_load l : NoDup (map e_id l) -> reach (fold_left loadnode l db0)
| r_record d e : reach d -> e_name e <> 0 -> reach (addnode d e)
| r_mapnode d i nm : reach d -> reach (mapnode d i nm)
| r_observe d i adj a b c : reach d -> reach (observe d i adj a b c)
| r_learn d i nm : reach d -> reach (learn d i nm).
Definition lookup (d : mapdb) (i : Z) : option entry := match d_nodes d i with Some o => Some (d_heap d o) | None => None end.

(** * Lemmas *)
Lemma zset_eq A (f : Z -> A) k v : zset f k v k = v.
Proof. unfold zset. rewrite Z.eqb_refl. reflexivity. Qed.
Lemma zset_ne A (f : Z -> A) k v x : x <> k -> zset f k v x = f x.
Proof. intros N. unfold zset. destruct (Z.eqb_spec x k); congruence. Qed.
Lemma nset_eq A (f : nat -> A) k v : nset f k v k = v.
Proof. unfold nset. rewrite Nat.eqb_refl. reflexivity. Qed.
Lemma nset_ne A (f : nat -> A) k v x : x <> k -> nset f k v x = f x.
Proof. intros N. unfold nset. destruct (Nat.eqb_spec x k); congruence. Qed.
Definition wf (d : mapdb) : Prop :=
  (forall i o, d_nodes d i = Some o -> (o < d_next d)%nat /\ e_id (d_heap d o) = i) /\
  (forall x o, x <> 0 -> d_names d x = Some o -> e_name (d_heap d o) = x /\ d_nodes d (e_id (d_heap d o)) = Some o).
Lemma wf_lt d x o : wf d -> x <> 0 -> d_names d x = Some o -> (o < d_next d)%nat.
Proof. intros [A B] X N. destruct (B x o X N) as [_ C]. exact (proj1 (A _ _ C)). Qed.
(** A change of an object that keeps its address, and its name unless it had none. *)
Lemma set_wf d o v : wf d -> (o < d_next d)%nat -> e_id v = e_id (d_heap d o) -> (e_name v = e_name (d_heap d o) \/ e_name (d_heap d o) = 0) ->
  wf (mkDb (nset (d_heap d) o v) (d_next d) (d_nodes d) (d_names d)).
Proof.
  intros [A B] L I N. split; cbn [d_nodes d_heap d_names d_next].
  - intros i q H. destruct (A i q H) as [A1 A2]. split; [exact A1 |]. destruct (Nat.eq_dec q o) as [-> | Q]; [rewrite nset_eq; congruence | rewrite nset_ne; assumption].
  - intros x q X H. destruct (B x q X H) as [B1 B2]. destruct (Nat.eq_dec q o) as [-> | Q]; [rewrite nset_eq | rewrite nset_ne; auto].
    rewrite I. split; [| exact B2]. destruct N as [N | N]; congruence.
Qed.
Lemma alloc_wf d e : wf d -> wf (mkDb (nset (d_heap d) (d_next d) e) (S (d_next d)) (d_nodes d) (d_names d)).
Proof.
  intros W. split; cbn [d_nodes d_heap d_names d_next].
  - intros i q H. destruct (proj1 W i q H) as [A1 A2]. split; [lia |]. rewrite nset_ne by lia. exact A2.
  - intros x q X H. pose proof (wf_lt d x q W X H) as L. rewrite nset_ne by lia. exact (proj2 W x q X H).
Qed.
(** Entering a new object: what holds after it. *)
Lemma addnew_wf d r e : (r < d_next d)%nat -> d_heap d r = e ->
  (forall i o, i <> e_id e -> d_nodes d i = Some o -> (o < d_next d)%nat /\ e_id (d_heap d o) = i) ->
  (forall x o, x <> 0 -> d_names d x = Some o -> e_name (d_heap d o) = x /\ d_nodes d (e_id (d_heap d o)) = Some o /\ e_id (d_heap d o) <> e_id e) ->
  wf (addnew d r e) /\ d_nodes (addnew d r e) (e_id e) = Some r /\ (e_name e <> 0 -> d_names (addnew d r e) (e_name e) = Some r).
Proof.
  intros L H A B. unfold addnew. destruct (Z.eqb_spec (e_name e) 0) as [Z0 | NZ].
  - split; [split |]; cbn [d_nodes d_heap d_names d_next].
    + intros i o N. destruct (Z.eq_dec i (e_id e)) as [-> | I]; [rewrite zset_eq in N; injection N as <-; split; [exact L | congruence] | rewrite zset_ne in N by exact I; exact (A i o I N)].
    + intros x o X N. destruct (B x o X N) as (B1 & B2 & B3). split; [exact B1 |]. rewrite zset_ne by exact B3. exact B2.
    + split; [apply zset_eq | congruence].
  - set (nodes := match d_names d (e_name e) with Some o => _ | None => _ end).
    assert (NI : nodes (e_id e) = Some r).
    { unfold nodes. destruct (d_names d (e_name e)) as [o |] eqn:O; [| apply zset_eq]. destruct (B _ _ NZ O) as (_ & _ & B3). rewrite zset_ne by congruence. apply zset_eq. }
    split; [split |]; cbn [d_nodes d_heap d_names d_next].
    + intros i o N. destruct (Z.eq_dec i (e_id e)) as [-> | I].
      * rewrite NI in N. injection N as <-. split; [exact L | congruence].
      * apply (A i o I). unfold nodes in N. destruct (d_names d (e_name e)) as [q |] eqn:O; [| rewrite zset_ne in N by exact I; exact N].
        destruct (Z.eq_dec i (e_id (d_heap d q))) as [E | E]; [rewrite E, zset_eq in N; discriminate N |]. rewrite !zset_ne in N by assumption. exact N.
    + intros x o X N. destruct (Z.eq_dec x (e_name e)) as [-> | XE].
      * rewrite zset_eq in N. injection N as <-. rewrite H. split; [reflexivity | exact NI].
      * rewrite zset_ne in N by exact XE. destruct (B x o X N) as (B1 & B2 & B3). split; [exact B1 |].
        unfold nodes. destruct (d_names d (e_name e)) as [q |] eqn:O; [| rewrite zset_ne by exact B3; exact B2].
        destruct (B _ _ NZ O) as (C1 & C2 & _). rewrite zset_ne; [rewrite zset_ne by exact B3; exact B2 |].
        intros E. rewrite E, C2 in B2. injection B2 as ->. congruence.
    + split; [exact NI | intros _; apply zset_eq].
Qed.
(** The object that a node has after addnode, and the names. *)
Lemma add_ok d e : wf d -> (d_nodes d (e_id e) <> None -> e_name e <> 0) ->
  wf (addnode d e) /\
  exists o, d_nodes (addnode d e) (e_id e) = Some o /\
    (d_heap (addnode d e) o = e \/ exists q, d_nodes d (e_id e) = Some q /\ d_heap (addnode d e) o = merge (d_heap d q) e) /\
    (match d_nodes d (e_id e) with Some q => e_name (d_heap d q) <> e_name e | None => e_name e <> 0 end -> d_names (addnode d e) (e_name e) = Some o).
Proof.
  intros W NN. pose proof (alloc_wf d e W) as W1. unfold addnode. set (d1 := mkDb (nset (d_heap d) (d_next d) e) (S (d_next d)) (d_nodes d) (d_names d)) in *.
  change (d_nodes d1) with (d_nodes d). destruct (d_nodes d (e_id e)) as [q |] eqn:Q.
  - specialize (NN ltac:(discriminate)). destruct (proj1 W _ _ Q) as [QL QI].
    assert (QH : d_heap d1 q = d_heap d q) by (apply nset_ne; lia). rewrite QH. cbn [merge e_name]. fold (merge (d_heap d q) e).
    set (d2 := mkDb (nset (d_heap d1) q (merge (d_heap d q) e)) (d_next d1) (d_nodes d) (d_names d1)).
    destruct (Z.eqb_spec (e_name (d_heap d q)) (e_name e)) as [E | E].
    + split; [| exists q; split; [exact Q |]; split; [right; exists q; split; [reflexivity | apply nset_eq] | congruence]].
      apply (set_wf d1 q (merge (d_heap d q) e) W1); [cbn; lia | rewrite QH; reflexivity | left; rewrite QH; cbn [merge e_name]; congruence].
    + change (d_names d2) with (d_names d). destruct (d_names d (e_name (d_heap d q))) as [q2 |] eqn:N.
      * split; [split |]; cbn [d_nodes d_heap d_names d_next d2].
        -- intros i o H. destruct (proj1 W1 i o H) as [A1 A2]. split; [exact A1 |]. destruct (Nat.eq_dec o q) as [-> | OQ]; [rewrite nset_eq; cbn [merge e_id]; rewrite QH in A2; exact A2 | rewrite nset_ne; assumption].
        -- intros x o X H. destruct (Z.eq_dec x (e_name e)) as [-> | XE].
           ++ rewrite zset_eq in H. injection H as <-. rewrite nset_eq. cbn [merge e_name e_id]. rewrite QI. split; [reflexivity | exact Q].
           ++ rewrite zset_ne in H by exact XE. destruct (Z.eq_dec x (e_name (d_heap d q))) as [-> | XO]; [rewrite zset_eq in H; discriminate H |].
              rewrite zset_ne in H by exact XO. destruct (proj2 W1 x o X H) as [B1 B2]. destruct (Nat.eq_dec o q) as [-> | OQ]; [rewrite QH in B1; congruence |].
              rewrite nset_ne by exact OQ. auto.
        -- exists q. split; [exact Q |]. split; [right; exists q; split; [reflexivity | apply nset_eq] |]. intros _. apply zset_eq.
      * assert (R : d_heap d2 (d_next d) = e) by (cbn [d2 d_heap d1]; rewrite nset_ne by lia; apply nset_eq).
        destruct (addnew_wf d2 (d_next d) e) as (A & B & C).
        -- cbn. lia.
        -- exact R.
        -- intros i o I H. destruct (proj1 W1 i o H) as [A1 A2]. split; [exact A1 |]. cbn [d2 d_heap]. destruct (Nat.eq_dec o q) as [-> | OQ]; [rewrite nset_eq; cbn [merge e_id]; congruence | rewrite nset_ne; assumption].
        -- intros x o X H. destruct (proj2 W1 x o X H) as [B1 B2]. cbn [d2 d_heap d_nodes].
           assert (OQ : o <> q). { intros ->. rewrite QH in B1. change (d_names d x = Some q) in H. rewrite <- B1, N in H. discriminate H. }
           rewrite nset_ne by exact OQ. split; [exact B1 |]. split; [exact B2 |]. intros E2. rewrite E2 in B2. change (d_nodes d (e_id e) = Some o) in B2. congruence.
        -- split; [exact A |]. exists (d_next d). split; [exact B |]. split; [left; unfold addnew; destruct (e_name e =? 0); exact R | intros _; exact (C NN)].
  - destruct (addnew_wf d1 (d_next d) e) as (A & B & C).
    + cbn. lia.
    + apply nset_eq.
    + intros i o _ H. exact (proj1 W1 i o H).
    + intros x o X H. destruct (proj2 W1 x o X H) as [B1 B2]. split; [exact B1 |]. split; [exact B2 |]. intros E. rewrite E in B2. change (d_nodes d (e_id e) = Some o) in B2. congruence.
    + split; [exact A |]. exists (d_next d). split; [exact B |]. split; [left; unfold addnew; destruct (e_name e =? 0); apply nset_eq | exact C].
Qed.
Lemma load_wf l : NoDup (map e_id l) -> wf (fold_left loadnode l db0) /\ forall i, d_nodes (fold_left loadnode l db0) i <> None -> In i (map e_id l).
Proof.
  induction l as [| e l IH] using rev_ind; intros ND.
  - split; [split; [intros i o H; discriminate H | intros x o _ H; discriminate H] | intros i H; exfalso; apply H; reflexivity].
  - rewrite map_app in ND. cbn [map] in ND. apply NoDup_remove in ND as [ND NI]. rewrite app_nil_r in ND, NI. destruct (IH ND) as [W D].
    rewrite fold_left_app. cbn [fold_left]. set (d := fold_left loadnode l db0) in *. clearbody d. unfold loadnode. split; [split |]; cbn [d_nodes d_heap d_names d_next].
    + intros i o H. destruct (Z.eq_dec i (e_id e)) as [-> | I].
      * rewrite zset_eq in H. injection H as <-. split; [lia | rewrite nset_eq; reflexivity].
      * rewrite zset_ne in H by exact I. destruct (proj1 W i o H) as [A1 A2]. split; [lia |]. rewrite nset_ne by lia. exact A2.
    + intros x o X H. destruct (Z.eq_dec x (e_name e)) as [-> | XE].
      * rewrite zset_eq in H. injection H as <-. rewrite nset_eq. split; [reflexivity | apply zset_eq].
      * rewrite zset_ne in H by exact XE. pose proof (wf_lt d x o W X H) as L. rewrite nset_ne by lia. destruct (proj2 W x o X H) as [B1 B2]. split; [exact B1 |].
        rewrite zset_ne; [exact B2 |]. intros E. apply NI. apply D. rewrite <- E, B2. discriminate.
    + intros i H. rewrite map_app. apply in_app_iff. destruct (Z.eq_dec i (e_id e)) as [-> | I]; [right; left; reflexivity | left; apply D; rewrite zset_ne in H by exact I; exact H].
Qed.
Lemma reach_wf d : reach d -> wf d.
Proof.
  intros R. induction R as [l ND | d e R IH N | d i nm R IH | d i adj a b c R IH | d i nm R IH].
  - exact (proj1 (load_wf l ND)).
  - exact (proj1 (add_ok d e IH (fun _ => N))).
  - unfold mapnode. destruct (d_nodes d i) as [o |] eqn:O; [exact IH |]. apply (add_ok d (fresh i nm) IH). cbn [fresh e_id]. rewrite O. congruence.
  - unfold observe. destruct (d_nodes d i) as [o |] eqn:O; [| exact IH]. destruct (proj1 IH i o O) as [L _]. apply set_wf; [exact IH | exact L | reflexivity | left; reflexivity].
  - unfold learn. destruct (d_nodes d i) as [o |] eqn:O; [| exact IH]. destruct (proj1 IH i o O) as [L _]. destruct (Z.eqb_spec (e_name (d_heap d o)) 0) as [Z0 | _]; [| exact IH].
    apply set_wf; [exact IH | exact L | reflexivity | right; exact Z0].
Qed.

(** * Theorems *)
(** A name that is found leads to a node of the database that has this name, and nodes
    are found under their own addresses. *)
Theorem mapdb_names d : reach d ->
  (forall x o, x <> 0 -> d_names d x = Some o -> e_name (d_heap d o) = x /\ lookup d (e_id (d_heap d o)) = Some (d_heap d o)) /\
  (forall i e, lookup d i = Some e -> e_id e = i).
Proof.
  intros R. pose proof (reach_wf d R) as [A B]. split.
  - intros x o X N. destruct (B x o X N) as [B1 B2]. split; [exact B1 |]. unfold lookup. rewrite B2. reflexivity.
  - intros i e H. unfold lookup in H. destruct (d_nodes d i) as [o |] eqn:O; [| discriminate H]. injection H as <-. exact (proj2 (A i o O)).
Qed.
Print Assumptions mapdb_names.

(** After a record of the database server the node is there, with the name, the place
    and, if they were given, owner and coordinates of the record; and the name leads to
    it, if it is a new one. *)
Theorem mapdb_record d e : reach d -> e_name e <> 0 ->
  exists x, lookup (addnode d e) (e_id e) = Some x /\ e_id x = e_id e /\ e_name x = e_name e /\ e_loc x = e_loc e /\
    (e_owner e <> None -> e_owner x = e_owner e) /\ (e_latlong e <> None -> e_latlong x = e_latlong e) /\
    ((forall y, lookup d (e_id e) = Some y -> e_name y <> e_name e) -> d_names (addnode d e) (e_name e) = d_nodes (addnode d e) (e_id e)).
Proof.
  intros R N. destruct (add_ok d e (reach_wf d R) (fun _ => N)) as (_ & o & O & H & NM). exists (d_heap (addnode d e) o).
  split; [unfold lookup; rewrite O; reflexivity |].
  assert (F : (forall y, lookup d (e_id e) = Some y -> e_name y <> e_name e) -> d_names (addnode d e) (e_name e) = d_nodes (addnode d e) (e_id e)).
  { intros Y. rewrite O. apply NM. unfold lookup in Y. destruct (d_nodes d (e_id e)) as [q |]; [exact (Y _ eq_refl) | exact N]. }
  destruct H as [-> | (q & Q & ->)]; [repeat split; auto |]. cbn [merge e_id e_name e_loc e_owner e_latlong].
  split; [exact (proj2 (proj1 (reach_wf d R) _ _ Q)) |]. split; [reflexivity |]. split; [reflexivity |].
  split; [destruct (e_owner e); [reflexivity | congruence] |]. split; [destruct (e_latlong e); [reflexivity | congruence] | exact F].
Qed.
Print Assumptions mapdb_record.

(** No other node is changed or lost by it, except one that had the same name. *)
Theorem mapdb_others d e i x : reach d -> e_name e <> 0 -> i <> e_id e -> lookup d i = Some x ->
  lookup (addnode d e) i = Some x \/ (lookup (addnode d e) i = None /\ e_name x = e_name e).
Proof.
  intros R N I L. pose proof (reach_wf d R) as W. unfold lookup in L. destruct (d_nodes d i) as [o |] eqn:O; [| discriminate L]. injection L as <-.
  destruct (proj1 W i o O) as [OL OI].
  assert (G : forall h nx r, h o = d_heap d o -> (forall q, d_names d (e_name e) = Some q -> e_id (h q) = i -> e_name (d_heap d o) = e_name e) ->
    let d' := addnew (mkDb h nx (d_nodes d) (d_names d)) r e in lookup d' i = Some (d_heap d o) \/ (lookup d' i = None /\ e_name (d_heap d o) = e_name e)).
  { intros h nx r H Q. cbv zeta. unfold addnew. destruct (Z.eqb_spec (e_name e) 0) as [Z0 | _]; [congruence |]. cbn [d_nodes d_names d_heap d_next]. unfold lookup. cbn [d_nodes d_heap].
    destruct (d_names d (e_name e)) as [q |].
    - destruct (Z.eq_dec i (e_id (h q))) as [E | E]; [right; rewrite E at 1; rewrite zset_eq; split; [reflexivity | exact (Q q eq_refl (eq_sym E))] |].
      left. rewrite !zset_ne by assumption. rewrite O, H. reflexivity.
    - left. rewrite zset_ne by exact I. rewrite O, H. reflexivity. }
  assert (NQ : forall q, d_names d (e_name e) = Some q -> (q < d_next d)%nat /\ (e_id (d_heap d q) = i -> e_name (d_heap d o) = e_name e)).
  { intros q Q. split; [exact (wf_lt d _ q W N Q) |]. intros E. destruct (proj2 W _ q N Q) as [B1 B2]. rewrite E, O in B2. injection B2 as ->. exact B1. }
  assert (H1 : forall q, (q < d_next d)%nat -> nset (d_heap d) (d_next d) e q = d_heap d q) by (intros q Q; apply nset_ne; lia).
  unfold addnode. cbn [d_nodes d_names d_heap d_next]. destruct (d_nodes d (e_id e)) as [q |] eqn:Q.
  - destruct (proj1 W _ _ Q) as [QL QI]. rewrite (H1 q QL). cbn [merge e_name]. fold (merge (d_heap d q) e).
    assert (OQ : o <> q) by congruence.
    assert (HO : nset (nset (d_heap d) (d_next d) e) q (merge (d_heap d q) e) o = d_heap d o) by (rewrite nset_ne by exact OQ; exact (H1 o OL)).
    destruct (e_name (d_heap d q) =? e_name e); [left; unfold lookup; cbn [d_nodes d_heap]; rewrite O, HO; reflexivity |].
    destruct (d_names d (e_name (d_heap d q))) as [q2 |].
    + left. unfold lookup. cbn [d_nodes d_heap]. rewrite O, HO. reflexivity.
    + apply G; [exact HO |]. intros q3 Q3 E. destruct (NQ q3 Q3) as [L3 E3]. apply E3.
      destruct (Nat.eq_dec q3 q) as [-> | QQ]; [rewrite nset_eq in E; exact E | rewrite nset_ne, H1 in E by assumption; exact E].
  - apply G; [exact (H1 o OL) |]. intros q3 Q3 E. destruct (NQ q3 Q3) as [L3 E3]. apply E3. rewrite H1 in E by exact L3. exact E.
Qed.
Print Assumptions mapdb_others.

(** A node that is found in a scan is entered, as one never seen; a known one stays. *)
Theorem mapdb_mapnode d i n : reach d ->
  lookup (mapnode d i n) i = match lookup d i with Some x => Some x | None => Some (mkE i n [] 0 0 0 0 None 0 None None) end.
Proof.
  intros R. unfold mapnode, lookup at 2. destruct (d_nodes d i) as [o |] eqn:O; [unfold lookup; rewrite O; reflexivity |].
  destruct (add_ok d (fresh i n) (reach_wf d R)) as (_ & o & Q & H & _); [cbn [fresh e_id]; rewrite O; congruence |].
  cbn [fresh e_id] in Q, H. unfold lookup. fold (fresh i n) in Q, H. rewrite Q. destruct H as [-> | (q & X & _)]; [reflexivity | congruence].
Qed.
Print Assumptions mapdb_mapnode.
(** What a scan sees of a node changes only that node, and of it not its name or place;
    a name that it tells is taken only if it has none. *)
Theorem mapdb_scan d i adj a b c n j : reach d ->
  lookup (observe d i adj a b c) j =
    match lookup d j with
    | Some x => Some (if j =? i then mkE j (e_name x) adj a b c (e_loc x) (e_type x) (e_ident x) (e_owner x) (e_latlong x) else x)
    | None => None
    end /\
  match lookup d j with
  | Some x => exists y, lookup (learn d i n) j = Some y /\ e_name y = (if (j =? i) && (e_name x =? 0) then n else e_name x) /\ e_up y = e_up x /\ e_adj y = e_adj x
  | None => lookup (learn d i n) j = None
  end.
Proof.
  intros R. pose proof (proj1 (reach_wf d R)) as A. unfold observe, learn, lookup. destruct (d_nodes d i) as [o |] eqn:O.
  - cbn [d_nodes d_heap]. split.
    + destruct (d_nodes d j) as [q |] eqn:Q; [| reflexivity]. f_equal. destruct (Z.eqb_spec j i) as [-> | N].
      * assert (q = o) by congruence. subst q. rewrite nset_eq, (proj2 (A i o O)). reflexivity.
      * rewrite nset_ne; [reflexivity |]. intros ->. apply N. rewrite <- (proj2 (A j o Q)). exact (proj2 (A i o O)).
    + destruct (e_name (d_heap d o) =? 0) eqn:Z0; cbn [d_nodes d_heap]; destruct (d_nodes d j) as [q |] eqn:Q; try reflexivity; eexists; (split; [reflexivity |]).
      * destruct (Z.eqb_spec j i) as [-> | N].
        -- assert (q = o) by congruence. subst q. rewrite nset_eq, Z0. repeat split.
        -- rewrite nset_ne; [repeat split |]. intros ->. apply N. rewrite <- (proj2 (A j o Q)). exact (proj2 (A i o O)).
      * destruct (Z.eqb_spec j i) as [-> | N]; [| repeat split]. assert (q = o) by congruence. subst q. rewrite Z0. repeat split.
  - assert (JI : forall q, d_nodes d j = Some q -> (j =? i) = false) by (intros q Q; apply Z.eqb_neq; congruence).
    destruct (d_nodes d j) as [q |]; [| auto]. rewrite (JI q eq_refl). split; [reflexivity |]. eexists. repeat split.
Qed.
Print Assumptions mapdb_scan.
(** It is not so that a record of the database server leaves what scans have seen: every
    record resets the times and the adjacencies of a known node. *)
Theorem mapdb_forgets d e : reach d -> e_name e <> 0 -> exists x, lookup (addnode d e) (e_id e) = Some x /\ e_adj x = e_adj e /\ e_seen x = e_seen e /\ e_up x = e_up e.
Proof.
  intros R N. destruct (add_ok d e (reach_wf d R) (fun _ => N)) as (_ & o & O & H & _). exists (d_heap (addnode d e) o).
  split; [unfold lookup; rewrite O; reflexivity |]. destruct H as [-> | (q & _ & ->)]; repeat split; reflexivity.
Qed.
Print Assumptions mapdb_forgets.
Definition node1 : entry := mkE 1025 5 [] 0 0 0 7 None 0 None None.
Theorem mapdb_keeps_refuted : ~ (forall d e x, reach d -> e_name e <> 0 -> fields [FNode (e_name e); FAddr (e_id e); FLoc (e_loc e)] upd0 = Ok [e] ->
  lookup d (e_id e) = Some x -> exists y, lookup (addnode d e) (e_id e) = Some y /\ e_up y = e_up x /\ e_adj y = e_adj x).
Proof.
  intros H. set (d := observe (addnode db0 node1) 1025 [1026] 100 0 90).
  assert (R : reach d) by (apply r_observe, r_record; [exact (r_load [] (NoDup_nil _)) | discriminate]).
  destruct (H d node1 _ R ltac:(discriminate) eq_refl eq_refl) as (y & Y & U & _). vm_compute in Y. injection Y as <-. discriminate U.
Qed.
Print Assumptions mapdb_keeps_refuted.

(** Nor that names are unique and found: after two renames two nodes had the same name,
    and then a node's name leads nowhere. *)
Definition nm (i n : Z) : entry := mkE i n [] 0 0 0 7 None 0 None None.
Theorem mapdb_unique_refuted : ~ (forall d i j x y, reach d -> lookup d i = Some x -> lookup d j = Some y -> e_name x <> 0 -> e_name x = e_name y -> i = j).
Proof.
  intros H. set (d := addnode (addnode (addnode db0 (nm 1 5)) (nm 2 6)) (nm 2 5)).
  assert (R : reach d) by (repeat (apply r_record; [| discriminate]); exact (r_load [] (NoDup_nil _))).
  pose proof (H d 1 2 _ _ R eq_refl eq_refl ltac:(discriminate) eq_refl). discriminate.
Qed.
Print Assumptions mapdb_unique_refuted.
Theorem mapdb_found_refuted : ~ (forall d i x, reach d -> lookup d i = Some x -> e_name x <> 0 -> d_names d (e_name x) <> None).
Proof.
  intros H. set (d := addnode (addnode (addnode (addnode db0 (nm 1 5)) (nm 2 6)) (nm 2 5)) (nm 1 8)).
  assert (R : reach d) by (repeat (apply r_record; [| discriminate]); exact (r_load [] (NoDup_nil _))).
  apply (H d 2 _ R eq_refl); [discriminate | reflexivity].
Qed.
Print Assumptions mapdb_found_refuted.

(** * The answer of the database server *)
(** A record: name and address, place, and perhaps owner and coordinates. *)
Record rrec := mkR { r_name : Z; r_addr : Z; r_loc : Z; r_owner : option Z; r_coord : option Z }.
Definition lines (r : rrec) : list field :=
  [FNode (r_name r); FAddr (r_addr r)] ++ (match r_owner r with Some o => [FOwner o] | None => [] end) ++ [FOther; FLoc (r_loc r)] ++
  (match r_coord r with Some c => [FCoord c] | None => [] end).
Definition good (r : rrec) : Prop := r_name r <> 0 /\ r_coord r <> Some 0.
Definition scrapped (r : rrec) : bool := r_loc r =? 1.
Definition complete (r : rrec) : Prop := r_owner r <> None /\ r_coord r <> None.
(** The node of a record: never seen, with what the record says. *)
Definition entry_of (r : rrec) : entry := mkE (r_addr r) (r_name r) [] 0 0 0 (r_loc r) None 0 (r_owner r) (r_coord r).

Definition after (u : upd) (r : rrec) : upd :=
  mkU (r_name r) (Some (r_addr r)) (keep (r_owner r) (u_owner u)) (Some (r_loc r)) (match r_coord r with Some c => c | None => u_coord u end).
Definition base (u : upd) (n : Z) : upd := mkU n (u_addr u) (u_owner u) (u_loc u) (u_coord u).
Lemma lines_run r t u : fields (tl (lines r) ++ t) (base u (r_name r)) = fields t (after u r).
Proof. unfold lines, after. destruct (r_owner r), (r_coord r); reflexivity. Qed.
Definition empty_u (u : upd) : Prop := u_owner u = None /\ u_coord u = 0.
Lemma after_record u r : good r -> (empty_u u \/ complete r) -> record (after u r) = Ok (if scrapped r then None else Some (entry_of r)).
Proof.
  intros [N C] E. unfold record, after. cbn [u_name u_loc u_addr u_owner u_coord]. destruct (Z.eqb_spec (r_name r) 0); [congruence |].
  unfold scrapped, SCRAPPED. destruct (r_loc r =? 1); [reflexivity |]. do 2 f_equal. unfold entry_of.
  assert (O : keep (r_owner r) (u_owner u) = r_owner r).
  { destruct (r_owner r) as [o |] eqn:RO; [reflexivity |]. destruct E as [[E _] | [E _]]; [rewrite E; reflexivity | congruence]. }
  rewrite O. f_equal. destruct (r_coord r) as [c |] eqn:RC.
  - destruct (Z.eqb_spec c 0); [congruence | reflexivity].
  - destruct E as [[_ E] | [_ E]]; [rewrite E; reflexivity | congruence].
Qed.
Lemma fields_run rs : Forall good rs -> forall u r, good r -> (empty_u u \/ complete r) ->
  (Forall (fun r => scrapped r = false) (r :: rs) \/ Forall complete rs) ->
  fields (flat_map lines rs) (after u r) = Ok (map entry_of (filter (fun r => negb (scrapped r)) (r :: rs))).
Proof.
  intros G. induction G as [| r2 rs G2 G IH]; intros u r Gr E S.
  - cbn [flat_map fields filter]. rewrite (after_record u r Gr E). cbn [bind]. destruct (scrapped r); reflexivity.
  - cbn [flat_map]. change (lines r2) with (FNode (r_name r2) :: tl (lines r2)). cbn [app fields]. rewrite (after_record u r Gr E). cbn [bind filter].
    destruct (scrapped r) eqn:SR; cbn [negb].
    + change (mkU (r_name r2) _ _ _ _) with (base (after u r) (r_name r2)). rewrite lines_run.
      destruct S as [S | S]; [inversion_clear S as [| ? ? X _]; congruence |]. inversion_clear S as [| ? ? S1 S2].
      rewrite (IH (after u r) r2 G2 (or_intror S1) (or_intror S2)). reflexivity.
    + change (mkU (r_name r2) None None None 0) with (base upd0 (r_name r2)). rewrite lines_run.
      rewrite (IH upd0 r2 G2 (or_introl (conj eq_refl eq_refl))); [reflexivity |].
      destruct S as [S | S]; [left; inversion_clear S; assumption | right; inversion_clear S; assumption].
Qed.
(** Of an answer of records, all with owner and coordinates or none of them of a scrapped
    node, exactly those that are not scrapped become nodes, each with its own fields. *)
Theorem mapdb_answer rs : Forall good rs -> (Forall (fun r => scrapped r = false) rs \/ Forall complete rs) ->
  fields (flat_map lines rs) upd0 = Ok (map entry_of (filter (fun r => negb (scrapped r)) rs)).
Proof.
  intros G S. destruct G as [| r rs Gr G]; [reflexivity |].
  cbn [flat_map]. change (lines r) with (FNode (r_name r) :: tl (lines r)). cbn [app fields record upd0 u_name Z.eqb bind].
  change (mkU (r_name r) _ _ _ _) with (base upd0 (r_name r)). rewrite lines_run. apply fields_run; [exact G | exact Gr | left; split; reflexivity |].
  destruct S as [S | S]; [left; exact S | right; inversion_clear S; assumption].
Qed.
Print Assumptions mapdb_answer.
(** Not of all answers: a node after a scrapped one gets the coordinates of that, if it
    has none. *)
Theorem mapdb_answer_refuted : ~ (forall rs, Forall good rs -> fields (flat_map lines rs) upd0 = Ok (map entry_of (filter (fun r => negb (scrapped r)) rs))).
Proof.
  intros H. specialize (H [mkR 5 1025 1 (Some 3) (Some 77); mkR 6 1026 9 (Some 4) None]).
  assert (G : Forall good [mkR 5 1025 1 (Some 3) (Some 77); mkR 6 1026 9 (Some 4) None]) by (repeat constructor; discriminate).
  specialize (H G). vm_compute in H. discriminate H.
Qed.
Print Assumptions mapdb_answer_refuted.
(** A record without a place is an exception that ends the update, whatever follows. *)
Theorem mapdb_noloc n a n2 t : n <> 0 -> fields (FNode n :: FAddr a :: FNode n2 :: t) upd0 = Err EAttr.
Proof. intros N. cbn [fields record upd0 u_name Z.eqb bind u_addr u_owner u_loc u_coord]. unfold record. cbn [u_name u_loc]. destruct (Z.eqb_spec n 0); [congruence | reflexivity]. Qed.
Print Assumptions mapdb_noloc.

(** * The file *)
(** Any number of saves, each stopped after some of its steps or not. *)
Definition saves (l : list (nat * Z)) (f : files) : files := fold_left (fun f s => save (fst s) (snd s) f) l f.
Definition whole (c : option content) (m : Z) : Prop := c = Some (Whole m).
Definition intact (f : files) : Prop := f_map f <> Some Part /\ f_old f <> Some Part.
Lemma save_cases k m f : save k m f = f \/ save k m f = mkF (f_map f) (f_old f) (Some Part) \/ save k m f = mkF (f_map f) (f_old f) (Some (Whole m)) \/
  (k = 3%nat /\ save k m f = save_backup (mkF (f_map f) (f_old f) (Some (Whole m)))) \/ ((4 <= k)%nat /\ save k m f = save_rename (save_backup (mkF (f_map f) (f_old f) (Some (Whole m))))).
Proof.
  destruct k as [| [| [| [| k]]]]; [left; reflexivity | right; left; reflexivity | right; right; left; reflexivity | do 3 right; left; split; reflexivity |].
  do 4 right. split; [lia |]. unfold save. cbn [save_steps firstn]. rewrite firstn_nil. reflexivity.
Qed.
Lemma save_full k m f : (4 <= k)%nat -> save k m f = save_rename (save_backup (mkF (f_map f) (f_old f) (Some (Whole m)))).
Proof. intros K. destruct k as [| [| [| [| k]]]]; try lia. unfold save. cbn [save_steps firstn]. rewrite firstn_nil. reflexivity. Qed.
(** The map and its backup are never cut off, so loading never fails; and once there was
    a map, the map or, if it is not there, its backup is a whole one. *)
Theorem mapdb_file l : forall f, intact f -> intact (saves l f) /\ (exists m, load (saves l f) = Ok m) /\
  ((exists m, whole (f_map f) m) \/ (f_map f = None /\ exists m, whole (f_old f) m) \/ (exists s, In s l /\ (4 <= fst s)%nat) ->
   (exists m, whole (f_map (saves l f)) m) \/ (f_map (saves l f) = None /\ exists m, whole (f_old (saves l f)) m)).
Proof.
  assert (LD : forall f, intact f -> exists m, load f = Ok m).
  { intros f [A _]. unfold load. destruct (f_map f) as [[| m] |]; [congruence | exists m; reflexivity | exists 0; reflexivity]. }
  assert (ST : forall k m f, intact f -> intact (save k m f) /\
    ((exists x, whole (f_map f) x) \/ (f_map f = None /\ exists x, whole (f_old f) x) \/ (4 <= k)%nat ->
     (exists x, whole (f_map (save k m f)) x) \/ (f_map (save k m f) = None /\ exists x, whole (f_old (save k m f)) x))).
  { intros k m f I. destruct I as [A B].
    destruct (Nat.le_gt_cases 4 k) as [K | K].
    - rewrite (save_full k m f K). split.
      + split; unfold save_rename, save_backup; cbn [f_map f_old f_new]; [destruct (f_map f); discriminate |]. destruct (f_map f) as [[| x] |]; cbn [f_old]; [congruence | discriminate | exact B].
      + intros _. left. exists m. unfold save_rename, save_backup, whole. cbn [f_map f_new]. destruct (f_map f); reflexivity.
    - destruct (save_cases k m f) as [-> | [-> | [-> | [[_ ->] | [K2 _]]]]]; [| | | | lia].
      + split; [split; assumption |]. intros [H | [H | H]]; [auto | auto | lia].
      + split; [split; assumption |]. cbn [f_map f_old]. intros [H | [H | H]]; [auto | auto | lia].
      + split; [split; assumption |]. cbn [f_map f_old]. intros [H | [H | H]]; [auto | auto | lia].
      + unfold save_backup. cbn [f_map f_old f_new]. destruct (f_map f) as [[| x] |] eqn:F; [congruence | |]; cbn [f_map f_old].
        * split; [split; cbn [f_map f_old]; discriminate |]. intros _. right. split; [reflexivity | exists x; reflexivity].
        * split; [split; cbn [f_map f_old]; [discriminate | exact B] |]. intros [[y H] | [H | H]]; [discriminate H | right; exact H | lia]. }
  induction l as [| [k m] t IH]; intros f I; cbn [saves fold_left fst snd].
  - split; [exact I |]. split; [exact (LD f I) |]. intros [H | [H | (s & [] & _)]]; auto.
  - destruct (ST k m f I) as [I2 H2]. destruct (IH (save k m f) I2) as (J1 & J2 & J3). split; [exact J1 |]. split; [exact J2 |].
    intros H. apply J3. destruct H as [H | [H | (s & [<- | S] & K)]].
    + destruct (H2 (or_introl H)) as [X | X]; auto.
    + destruct (H2 (or_intror (or_introl H))) as [X | X]; auto.
    + destruct (H2 (or_intror (or_intror K))) as [X | X]; auto.
    + right. right. exists s. auto.
Qed.
Print Assumptions mapdb_file.
(** Unless a save stops between its two renames, the map that is loaded is that of the
    last save that was complete, or the one before all. *)
Fixpoint last_full (l : list (nat * Z)) (m0 : Z) : Z := match l with [] => m0 | (k, m) :: t => last_full t (if (4 <=? k)%nat then m else m0) end.
Theorem mapdb_load l m0 : forall f, load f = Ok m0 -> f_map f <> Some Part -> Forall (fun s => fst s <> 3%nat) l -> load (saves l f) = Ok (last_full l m0).
Proof.
  revert m0. induction l as [| [k m] t IH]; intros m0 f L P F; [exact L |].
  inversion_clear F as [| ? ? K F2]. cbn [fst] in K. cbn [saves fold_left fst snd last_full].
  destruct (Nat.leb_spec 4 k) as [K4 | K4].
  - apply IH; [| | exact F2]; rewrite (save_full k m f K4); unfold save_rename, save_backup, load; cbn [f_map f_new]; destruct (f_map f); cbn [f_new]; [reflexivity | reflexivity | discriminate | discriminate].
  - destruct (save_cases k m f) as [-> | [-> | [-> | [[K3 _] | [K5 _]]]]]; [| | | congruence | lia]; apply IH; assumption.
Qed.
Print Assumptions mapdb_load.
(** If it does stop there, the mapper starts with no data although both maps are there. *)
Theorem mapdb_load_refuted : ~ (forall k m m0 f, load f = Ok m0 -> load (save k m f) = Ok m0 \/ load (save k m f) = Ok m).
Proof. intros H. destruct (H 3%nat 8 7 (mkF (Some (Whole 7)) None None) eq_refl) as [X | X]; discriminate X. Qed.
Print Assumptions mapdb_load_refuted.

(** * Concrete cases *)
Example mapdb_ex : let d := addnode (addnode db0 (nm 1 5)) (nm 2 5) in
  reach d /\ lookup d 1 = None /\ lookup d 2 = Some (nm 2 5) /\ d_names d 5 = Some 1%nat.
Proof. cbv zeta. split; [repeat (apply r_record; [| discriminate]); exact (r_load [] (NoDup_nil _)) | repeat split]. Qed.
Example mapdb_ex_load : let d := learn (fold_left loadnode [nm 1 0; nm 2 5] db0) 1 6 in reach d /\ lookup d 1 = Some (nm 1 6) /\ d_names d 5 = Some 1%nat.
Proof. cbv zeta. split; [apply r_learn, r_load; repeat constructor; cbn; intuition discriminate | repeat split]. Qed.
Example mapdb_ex_answer : fields (flat_map lines [mkR 5 1025 9 (Some 3) None; mkR 6 1026 8 None (Some 70)]) upd0
  = Ok [mkE 1025 5 [] 0 0 0 9 None 0 (Some 3) None; mkE 1026 6 [] 0 0 0 8 None 0 None (Some 70)].
Proof. reflexivity. Qed.
Example mapdb_ex_file : saves [(4%nat, 7); (3%nat, 8); (1%nat, 9)] (mkF None None None) = mkF None (Some (Whole 7)) (Some Part).
Proof. reflexivity. Qed.
