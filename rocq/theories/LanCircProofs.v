(** Effects of the operations of LanCircModel, in terms of the entry known for
    a node address. *)
From Verif Require Import Base Dict RoutingModel LanCircModel.

(** The entry for a node address in the table of adjacencies. *)
Definition ent (s : lst) (id : Z) : option ladj :=
  match dget Z.eqb (tab s) id with Some ser => dget Z.eqb (objs s) ser | None => None end.
Record wf (s : lst) : Prop := {
  w_nd : NoDup (dkeys (tab s));
  w_tab : forall id ser, dget Z.eqb (tab s) id = Some ser -> exists a, dget Z.eqb (objs s) ser = Some a /\ a_id a = id;
  w_lt : forall ser a, dget Z.eqb (objs s) ser = Some a -> ser < nxt s }.

Lemma key_lt_spec : forall a b, key_lt a b = true <-> fst a < fst b \/ (fst a = fst b /\ snd a < snd b).
Proof. intros [a1 a2] [b1 b2]. unfold key_lt. cbn [fst snd]. lia. Qed.
Lemma key_ge_spec : forall a b, key_lt a b = false <-> fst b < fst a \/ (fst a = fst b /\ snd b <= snd a).
Proof. intros [a1 a2] [b1 b2]. unfold key_lt. cbn [fst snd]. lia. Qed.
Lemma maxby_spec : forall f l b, In (maxby f b l) (b :: l) /\ (forall x, In x (b :: l) -> key_lt (f (maxby f b l)) (f x) = false).
Proof.
  intros f l. induction l as [|y l IH]; intros b; cbn [maxby].
  - split; [left; auto|]. intros x [<-|[]]. apply key_ge_spec. lia.
  - destruct (IH (if key_lt (f b) (f y) then y else b)) as [I G]. split.
    + destruct I as [I|I]; [|right; right; auto]. destruct (key_lt (f b) (f y)); [right; left|left]; auto.
    + intros x [X|[X|X]]; [| |apply G; right; auto]; subst x; specialize (G _ (or_introl eq_refl));
        destruct (key_lt (f b) (f y)) eqn:E; auto; rewrite ?key_lt_spec, ?key_ge_spec in *; lia.
Qed.
Lemma minby_spec : forall f l b, In (minby f b l) (b :: l) /\ (forall x, In x (b :: l) -> key_lt (f x) (f (minby f b l)) = false).
Proof.
  intros f l. induction l as [|y l IH]; intros b; cbn [minby].
  - split; [left; auto|]. intros x [<-|[]]. apply key_ge_spec. lia.
  - destruct (IH (if key_lt (f y) (f b) then y else b)) as [I G]. split.
    + destruct I as [I|I]; [|right; right; auto]. destruct (key_lt (f y) (f b)); [right; left|left]; auto.
    + intros x [X|[X|X]]; [| |apply G; right; auto]; subst x; specialize (G _ (or_introl eq_refl));
        destruct (key_lt (f y) (f b)) eqn:E; auto; rewrite ?key_lt_spec, ?key_ge_spec in *; lia.
Qed.

Lemma get_obj_some : forall s ser a, dget Z.eqb (objs s) ser = Some a -> get_obj s ser = a.
Proof. intros s ser a H. unfold get_obj. rewrite H. reflexivity. Qed.
Lemma ent_some : forall s id a, wf s -> ent s id = Some a ->
  exists ser, dget Z.eqb (tab s) id = Some ser /\ dget Z.eqb (objs s) ser = Some a /\ a_id a = id.
Proof.
  intros s id a W H. unfold ent in H. destruct (dget Z.eqb (tab s) id) as [ser|] eqn:E; [|discriminate].
  destruct (w_tab s W _ _ E) as (a' & A1 & A2). exists ser. rewrite H in A1. injection A1 as <-. auto.
Qed.
Lemma tab_ent : forall s id ser, wf s -> dget Z.eqb (tab s) id = Some ser -> ent s id = Some (get_obj s ser) /\ a_id (get_obj s ser) = id.
Proof.
  intros s id ser W H. destruct (w_tab s W _ _ H) as (a & A1 & A2). unfold ent. rewrite H, A1, (get_obj_some _ _ _ A1). auto.
Qed.
Lemma in_routers : forall C any s ser, wf s -> (In ser (routers C any s) <->
  exists id a, ent s id = Some a /\ dget Z.eqb (tab s) id = Some ser /\ get_obj s ser = a /\ a_router a = true /\ (any = true \/ area_of id = area_of (l_id C))).
Proof.
  intros C any s ser W. unfold routers. rewrite filter_In. split.
  - intros [I F]. apply in_map_iff in I. destruct I as ((id, ser') & <- & I). cbn [snd] in *.
    apply (in_dget Z.eqb decides_Z _ _ _ (w_nd s W)) in I. destruct (tab_ent s id ser' W I) as [E1 E2].
    exists id, (get_obj s ser'). rewrite E2 in F. apply andb_prop in F. destruct F as [F1 F2].
    repeat split; auto. destruct any; [auto|right; apply Z.eqb_eq; exact F2].
  - intros (id & a & E & T & G & R & A). split.
    + apply in_map_iff. exists (id, ser). split; [reflexivity|]. eapply dget_in; eauto. apply decides_Z.
    + destruct (tab_ent s id ser W T) as [_ E2]. rewrite E2, G, R. destruct A as [->|A]; [reflexivity|]. destruct any; [reflexivity|]. cbn [andb orb]. lia.
Qed.
Definition rids (C : lcfg) (s : lst) : list Z := map (fun ser => a_id (get_obj s ser)) (routers C true s).
Lemma in_rids : forall C s id, wf s -> (In id (rids C s) <-> exists a, ent s id = Some a /\ a_router a = true).
Proof.
  intros C s id W. unfold rids. rewrite in_map_iff. split.
  - intros (ser & <- & I). apply (in_routers C true s ser W) in I. destruct I as (id' & a & E & T & G & R & _).
    destruct (tab_ent s id' ser W T) as [_ E2]. rewrite E2. eauto.
  - intros (a & E & R). destruct (ent_some _ _ _ W E) as (ser & T & O & I). exists ser. rewrite (get_obj_some _ _ _ O). split; [auto|].
    apply in_routers; auto. exists id, a. rewrite (get_obj_some _ _ _ O). auto 7.
Qed.
Lemma NoDup_filter_map : forall (f : Z -> Z) p l, NoDup (map f l) -> NoDup (map f (filter p l)).
Proof.
  intros f p l. induction l as [|x l IH]; intros N; cbn [filter map]; [constructor|]. cbn [map] in N. inversion N as [|? ? N1 N2]; subst.
  destruct (p x); [|auto]. cbn [map]. constructor; auto. intros I. apply N1. apply in_map_iff in I. destruct I as (y & E & I).
  apply filter_In in I. apply in_map_iff. exists y. tauto.
Qed.
Lemma NoDup_rids : forall C s, wf s -> NoDup (rids C s).
Proof.
  intros C s W. unfold rids, routers. apply NoDup_filter_map. rewrite map_map.
  assert (E : map (fun x => a_id (get_obj s (snd x))) (tab s) = dkeys (tab s)).
  { unfold dkeys. apply map_ext_in. intros (id, ser) I. cbn [fst snd].
    apply (in_dget Z.eqb decides_Z _ _ _ (w_nd s W)) in I. apply (tab_ent s id ser W I). }
  rewrite E. apply (w_nd s W).
Qed.
Lemma rids_len : forall C s, zlen (rids C s) = zlen (routers C true s).
Proof. intros C s. unfold rids, zlen. rewrite map_length. reflexivity. Qed.
Lemma incl_zlen : forall (a b : list Z), NoDup a -> incl a b -> zlen a <= zlen b.
Proof. intros a b N I. unfold zlen. apply inj_le. apply NoDup_incl_length; auto. Qed.

(** Who is best, from the entries. *)
Definition inarea (C : lcfg) (s : lst) (id : Z) (a : ladj) : Prop := ent s id = Some a /\ a_router a = true /\ area_of id = area_of (l_id C).
Definition mykey (C : lcfg) : Z * Z := (l_prio C, l_id C).
Lemma best_none : forall C s, wf s -> (findbestdr C s = None <-> forall id a, inarea C s id a -> key_lt (a_prio a, id) (mykey C) = true).
Proof.
  intros C s W. unfold findbestdr. destruct (routers C false s) as [|x t] eqn:R.
  - split; [|auto]. intros _ id a (E & Q & A). exfalso. destruct (ent_some _ _ _ W E) as (ser & T & O & I).
    assert (X : In ser (routers C false s)) by (apply in_routers; auto; exists id, a; rewrite (get_obj_some _ _ _ O); auto 7).
    rewrite R in X. destruct X.
  - destruct (maxby_spec (fun k => sortkey (get_obj s k)) t x) as [I G]. cbv zeta. set (d := maxby _ x t) in *. split.
    + intros H id a (E & Q & A). destruct (ent_some _ _ _ W E) as (ser & T & O & E').
      assert (X : In ser (routers C false s)) by (apply in_routers; auto; exists id, a; rewrite (get_obj_some _ _ _ O); auto 7).
      rewrite R in X. specialize (G _ X). cbv beta in G. rewrite (get_obj_some _ _ _ O) in G.
      destruct (key_lt (sortkey (get_obj s d)) (l_prio C, l_id C)) eqn:K; [|discriminate].
      unfold mykey. unfold sortkey in *. rewrite E' in G. rewrite key_lt_spec, key_ge_spec in *. cbn [fst snd] in *. lia.
    + intros H. rewrite <- R in I. apply (in_routers C false s d W) in I. destruct I as (id & a & E & T & Gd & Q & [F|A]); [discriminate|].
      destruct (tab_ent s id d W T) as [_ E2]. specialize (H id a (conj E (conj Q A))). unfold sortkey. rewrite E2, Gd. unfold mykey in H. rewrite H. reflexivity.
Qed.
Lemma best_some : forall C s d, wf s -> findbestdr C s = Some d ->
  exists id a, inarea C s id a /\ get_obj s d = a /\ a_id a = id /\ key_lt (a_prio a, id) (mykey C) = false /\
  (forall id' a', inarea C s id' a' -> key_lt (a_prio a, id) (a_prio a', id') = false).
Proof.
  intros C s d0 W. unfold findbestdr. destruct (routers C false s) as [|x t] eqn:R; [discriminate|].
  destruct (maxby_spec (fun k => sortkey (get_obj s k)) t x) as [I G]. cbv zeta. set (d := maxby _ x t) in *.
  destruct (key_lt (sortkey (get_obj s d)) (l_prio C, l_id C)) eqn:K; [discriminate|]. intros H. injection H as <-.
  rewrite <- R in I. apply (in_routers C false s d W) in I. destruct I as (id & a & E & T & Gd & Q & [F|A]); [discriminate|].
  destruct (tab_ent s id d W T) as [_ E2]. exists id, a. unfold inarea, mykey. unfold sortkey in K. rewrite E2, Gd in K.
  rewrite Gd in E2. repeat split; auto. intros id' a' (E' & Q' & A').
  destruct (ent_some _ _ _ W E') as (ser & T' & O & I').
  assert (X : In ser (routers C false s)) by (apply in_routers; auto; exists id', a'; rewrite (get_obj_some _ _ _ O); auto 7).
  rewrite R in X. specialize (G _ X). cbv beta in G. rewrite (get_obj_some _ _ _ O), Gd in G. unfold sortkey in G. rewrite E2, I' in G. auto.
Qed.

(** States that differ only in DR variables. *)
Definition same_adj (s s' : lst) : Prop := objs s' = objs s /\ tab s' = tab s /\ nxt s' = nxt s.
Lemma same_wf : forall s s', same_adj s s' -> wf s -> wf s'.
Proof. intros s s' (A & B & D) [W1 W2 W3]. constructor; rewrite ?A, ?B, ?D; auto. Qed.
Lemma same_ent : forall s s' id, same_adj s s' -> ent s' id = ent s id.
Proof. intros s s' id (A & B & D). unfold ent. rewrite A, B. reflexivity. Qed.
Lemma same_get : forall s s' k, same_adj s s' -> get_obj s' k = get_obj s k.
Proof. intros s s' id (A & B & D). unfold get_obj. rewrite A. reflexivity. Qed.
Lemma same_routers : forall C any s s', same_adj s s' -> routers C any s' = routers C any s.
Proof. intros C any s s' H. unfold routers. destruct H as (A & B & D). rewrite B. unfold get_obj. rewrite A. reflexivity. Qed.
Lemma same_best : forall C s s', same_adj s s' -> findbestdr C s' = findbestdr C s.
Proof.
  intros C s s' H. unfold findbestdr. rewrite (same_routers C false s s' H). destruct H as (A & B & D). unfold get_obj. rewrite A. reflexivity.
Qed.
Lemma same_refl : forall s, same_adj s s. Proof. intros. repeat split. Qed.

Lemma calcdr_spec : forall C s s' o, calcdr C s = (s', o) ->
  same_adj s s' /\ blk s' = blk s /\ (isdr s' = true -> isdr s = true /\ findbestdr C s' = None) /\
  (forall x, In x o -> x = LNewHello) /\
  (findbestdr C s = None -> isdr s' = isdr s /\ (isdr s' = true \/ drt s' = true)) /\
  (forall d, findbestdr C s = Some d -> isdr s' = false /\ exists x, dr s' = DrAdj x /\ a_id (get_obj s x) = a_id (get_obj s d)).
Proof.
  intros C s s' o H. unfold calcdr in H. destruct (findbestdr C s) as [d|] eqn:B.
  - assert (S1 : forall b, same_adj s (withisdr s b)) by (intros; repeat split).
    destruct (isdr s) eqn:I.
    + destruct (dr_is (withisdr s false) d) eqn:E; injection H as <- <-.
      * split; [apply S1|]. split; [reflexivity|]. split; [discriminate|]. split; [intros x [<-|[]]; auto|]. split; [discriminate|].
        intros d' D. injection D as <-. split; [reflexivity|]. unfold dr_is in E. cbn [withisdr dr] in *. destruct (dr s) as [| |x]; try discriminate.
        exists x. split; [auto|]. rewrite Z.eqb_eq in E. exact E.
      * split; [repeat split|]. split; [reflexivity|]. split; [discriminate|]. split; [intros x [<-|[]]; auto|]. split; [discriminate|].
        intros d' D. injection D as <-. split; [reflexivity|]. exists d. split; reflexivity.
    + destruct (dr_is s d) eqn:E; injection H as <- <-.
      * split; [repeat split|]. split; [reflexivity|]. split; [rewrite I; discriminate|]. split; [intros x []|]. split; [discriminate|].
        intros d' D. injection D as <-. split; [auto|]. unfold dr_is in E. destruct (dr s) as [| |x]; try discriminate.
        exists x. split; [auto|]. rewrite Z.eqb_eq in E. exact E.
      * split; [repeat split|]. split; [reflexivity|]. cbn [withdr withdrt isdr]. split; [rewrite I; discriminate|]. split; [intros x []|]. split; [discriminate|].
        intros d' D. injection D as <-. split; [auto|]. exists d. split; reflexivity.
  - destruct (negb (isdr s) && negb (drt s)) eqn:E; injection H as <- <-.
    + split; [repeat split|]. split; [reflexivity|]. cbn [withdrt isdr drt]. split; [intros X; rewrite X in E; discriminate|]. split; [intros x []|].
      split; [auto|discriminate].
    + split; [repeat split|]. split; [reflexivity|]. split; [auto|]. split; [intros x []|]. split; [|discriminate].
      intros _. split; [auto|]. destruct (isdr s); [auto|]. destruct (drt s); [auto|discriminate].
Qed.

Lemma put_wf : forall s ser a a', wf s -> dget Z.eqb (objs s) ser = Some a -> a_id a' = a_id a -> wf (put_obj s ser a').
Proof.
  intros s ser a a' [W1 W2 W3] O E. unfold put_obj. constructor; cbn [withobjs tab objs nxt]; auto.
  - intros id k T. destruct (W2 _ _ T) as (b & B1 & B2). rewrite (dget_dset Z.eqb decides_Z). destruct (Z.eqb_spec k ser) as [->|N]; [|eauto].
    exists a'. split; auto. rewrite B1 in O. injection O as ->. lia.
  - intros k b. rewrite (dget_dset Z.eqb decides_Z). destruct (Z.eqb_spec k ser) as [->|N]; eauto.
Qed.
Lemma put_get : forall s ser a k, get_obj (put_obj s ser a) k = if k =? ser then a else get_obj s k.
Proof. intros. unfold get_obj, put_obj. cbn [withobjs objs]. rewrite (dget_dset Z.eqb decides_Z). destruct (k =? ser); reflexivity. Qed.
Lemma put_obj_get : forall s ser a k, dget Z.eqb (objs (put_obj s ser a)) k = if k =? ser then Some a else dget Z.eqb (objs s) k.
Proof. intros. unfold put_obj. cbn [withobjs objs]. apply (dget_dset Z.eqb decides_Z). Qed.
Lemma put_ent : forall s ser a' id, wf s -> ent (put_obj s ser a') id = match dget Z.eqb (tab s) id with Some k => if k =? ser then Some a' else ent s id | None => None end.
Proof.
  intros s ser a' id W. unfold ent. cbn [put_obj withobjs tab]. destruct (dget Z.eqb (tab s) id) as [k|]; [|reflexivity].
  rewrite put_obj_get. reflexivity.
Qed.
Lemma put_ent_at : forall s ser a' id k, wf s -> dget Z.eqb (tab s) id = Some ser -> ent (put_obj s ser a') k = if k =? id then Some a' else ent s k.
Proof.
  intros s ser a' id k W T. rewrite put_ent by auto. destruct (Z.eqb_spec k id) as [->|N].
  - rewrite T, Z.eqb_refl. reflexivity.
  - unfold ent. destruct (dget Z.eqb (tab s) k) as [j|] eqn:E; [|reflexivity]. destruct (Z.eqb_spec j ser) as [->|M]; [|reflexivity].
    exfalso. apply N. destruct (w_tab s W _ _ T) as (a & A1 & A2), (w_tab s W _ _ E) as (b & B1 & B2). congruence.
Qed.

Lemma del_wf : forall s id, wf s -> wf (withtab s (ddel Z.eqb (tab s) id)).
Proof.
  intros s id [W1 W2 W3]. constructor; cbn [withtab tab objs nxt]; auto.
  - apply NoDup_ddel; auto using decides_Z.
  - intros k ser. rewrite (dget_ddel Z.eqb decides_Z). destruct (k =? id); [discriminate|]. apply W2.
Qed.
Lemma del_ent : forall s id k, ent (withtab s (ddel Z.eqb (tab s) id)) k = if k =? id then None else ent s k.
Proof. intros. unfold ent. cbn [withtab tab objs]. rewrite (dget_ddel Z.eqb decides_Z). destruct (k =? id); reflexivity. Qed.

(** The entries determine whether a designated router exists. *)
Lemma best_mono : forall C s s', wf s -> wf s' -> (forall id a', ent s' id = Some a' -> a_router a' = true -> exists a, ent s id = Some a /\ a_router a = true /\ a_prio a = a_prio a') ->
  findbestdr C s = None -> findbestdr C s' = None.
Proof.
  intros C s s' W W' H B. apply best_none; auto. intros id a' (E & Q & A). destruct (H _ _ E Q) as (a & E' & Q' & P). rewrite <- P.
  apply (proj1 (best_none C s W) B). repeat split; auto.
Qed.

(** deladj. *)
Definition drs (s : lst) : drv * bool * bool := (dr s, isdr s, drt s).
Lemma deladj_spec : forall C s ser a ev s' o, wf s -> dget Z.eqb (objs s) ser = Some a -> deladj C s ser ev = (s', o) ->
  wf s' /\ (nxt s' = nxt s /\ tab s' = ddel Z.eqb (tab s) (a_id a)) /\
  (forall id, ent s' id = if id =? a_id a then None else ent s id) /\
  (forall k b, k <> ser -> dget Z.eqb (objs s) k = Some b -> dget Z.eqb (objs s') k = Some b) /\
  (isdr s' = true -> isdr s = true /\ (findbestdr C s = None -> findbestdr C s' = None)) /\
  (a_up a = true -> In (LDown (a_id a) (a_type a)) o) /\
  (forall i t, In (LUp i t) o -> exists i', ev i' = LUp i t).
Proof.
  intros C s ser a ev s' o W O H. unfold deladj in H. rewrite (get_obj_some _ _ _ O) in H.
  (* the part before the table entry goes *)
  assert (X : exists s1 o1, (if a_up a then let '(s', o') := a_goes_down (put_obj s ser (set_up a false)) ser in (s', ev (a_id a) :: o') else (s, [])) = (s1, o1) /\
     wf s1 /\ nxt s1 = nxt s /\ tab s1 = tab s /\ drs s1 = drs s /\ (forall k, k <> ser -> dget Z.eqb (objs s1) k = dget Z.eqb (objs s) k) /\
     (exists a1, dget Z.eqb (objs s1) ser = Some a1 /\ a_id a1 = a_id a) /\
     (a_up a = true -> In (LDown (a_id a) (a_type a)) o1) /\ (forall i t, In (LUp i t) o1 -> exists i', ev i' = LUp i t)).
  { destruct (a_up a) eqn:U.
    - unfold a_goes_down. rewrite put_get, Z.eqb_refl. eexists _, _. split; [reflexivity|].
      assert (W1 : wf (put_obj s ser (set_up a false))) by (eapply put_wf; eauto).
      assert (O1 : dget Z.eqb (objs (put_obj s ser (set_up a false))) ser = Some (set_up a false)) by (rewrite put_obj_get, Z.eqb_refl; reflexivity).
      split; [eapply put_wf; eauto|]. repeat split.
      + intros k N. rewrite !put_obj_get. replace (k =? ser) with false by lia. reflexivity.
      + eexists. rewrite put_obj_get, Z.eqb_refl. split; reflexivity.
      + intros _. right. left. reflexivity.
      + intros i t J. cbn [In] in J. destruct J as [J|[J|[]]]; [exists (a_id a); exact J|discriminate J].
    - exists s, []. split; [reflexivity|]. split; [exact W|]. repeat split; [eauto|discriminate|intros i t []]. }
  destruct X as (s1 & o1 & E & W1 & N1 & T1 & D1 & K1 & (a1 & A1 & A1') & U1 & L1). rewrite E in H. clear E.
  set (s2 := withtab s1 (ddel Z.eqb (tab s1) (a_id a))) in *.
  assert (W2 : wf s2) by (apply del_wf; auto).
  assert (E2 : forall id, ent s2 id = if id =? a_id a then None else ent s id).
  { intros id. unfold s2. rewrite del_ent. destruct (Z.eqb_spec id (a_id a)) as [->|N]; [reflexivity|].
    unfold ent. rewrite T1. destruct (dget Z.eqb (tab s) id) as [k|] eqn:Q; [|reflexivity]. apply K1. intros ->.
    destruct (w_tab s W _ _ Q) as (b & B1 & B2). congruence. }
  set (s3 := match dr s2 with DrAdj x => if x =? ser then withdr s2 DrNone else s2 | _ => s2 end) in *.
  assert (S3 : same_adj s2 s3 /\ isdr s3 = isdr s2 /\ drt s3 = drt s2).
  { unfold s3. destruct (dr s2) as [| |x]; try (repeat split; fail). destruct (x =? ser); repeat split. }
  destruct S3 as (S3 & I3 & DT3).
  assert (M : findbestdr C s = None -> findbestdr C s3 = None).
  { rewrite (same_best C s2 s3 S3). apply best_mono; auto. intros id a' Q R. rewrite E2 in Q. destruct (id =? a_id a); [discriminate|]. eauto. }
  assert (I0 : isdr s2 = isdr s) by (unfold s2; cbn [withtab isdr]; unfold drs in D1; congruence).
  assert (KO : forall k b, k <> ser -> dget Z.eqb (objs s) k = Some b -> dget Z.eqb (objs s3) k = Some b).
  { intros k b N Q. destruct S3 as (-> & _). unfold s2. cbn [withtab objs]. rewrite K1; auto. }
  destruct (a_router a).
  - destruct (calcdr C s3) as [s4 o4] eqn:Q. injection H as <- <-. destruct (calcdr_spec _ _ _ _ Q) as (S4 & _ & I4 & L4 & _).
    assert (S5 : same_adj s4 (update_blk C s4)) by (repeat split).
    split; [eapply same_wf; [exact S5|]; eapply same_wf; [exact S4|]; eapply same_wf; eauto|].
    split. { destruct S5 as (_ & -> & ->), S4 as (_ & -> & ->), S3 as (_ & -> & ->). unfold s2. cbn [withtab nxt tab]. rewrite T1. auto. }
    split. { intros id. rewrite (same_ent _ _ id S5), (same_ent _ _ id S4), (same_ent _ _ id S3). auto. }
    split. { intros k b N B. destruct S5 as (-> & _). destruct S4 as (-> & _). auto. }
    split. { cbn [update_blk withblk isdr]. intros T. destruct (I4 T) as [Ta Tb]. split; [congruence|]. intros _. rewrite (same_best C _ _ S5). auto. }
    split. { intros U. apply in_or_app. left. auto. }
    intros i t In_. apply in_app_or in In_. destruct In_ as [J|J]; [destruct (L1 _ _ J); eauto|]. apply in_app_or in J. destruct J as [J|[J|[]]]; [apply L4 in J; discriminate|discriminate].
  - injection H as <- <-.
    split; [eapply same_wf; eauto|]. split. { destruct S3 as (_ & -> & ->). unfold s2. cbn [withtab nxt tab]. rewrite T1. auto. }
    split. { intros id. rewrite (same_ent _ _ id S3). auto. }
    split; [auto|]. split; [split; [congruence|auto]|]. split; [auto|].
    intros i t J. destruct (L1 _ _ J). eauto.
Qed.

Definition core (a : ladj) : Z * ntype * Z * Z := (a_id a, a_type a, a_prio a, a_blk a).
Lemma dset_same_id : forall (d : dict Z Z) k v, dget Z.eqb d k = Some v -> dset Z.eqb d k v = d.
Proof.
  induction d as [|(k', v') d IH]; intros k v H; cbn [dget dset] in *; [discriminate|]. destruct (k =? k') eqn:E; [|rewrite IH; auto].
  injection H as ->. reflexivity.
Qed.
Lemma new_spec : forall s a, wf s -> dget Z.eqb (tab s) (a_id a) = None ->
  let s' := new_adj s a in
  wf s' /\ dget Z.eqb (tab s') (a_id a) = Some (nxt s) /\ dget Z.eqb (objs s') (nxt s) = Some a /\
  (forall k, ent s' k = if k =? a_id a then Some a else ent s k) /\ drs s' = drs s.
Proof.
  intros s a W N s'.
  assert (L : forall ser b, dget Z.eqb (objs s) ser = Some b -> ser <> nxt s) by (intros ser b Q; apply (w_lt s W) in Q; lia).
  assert (T : forall k, dget Z.eqb (tab s') k = if k =? a_id a then Some (nxt s) else dget Z.eqb (tab s) k).
  { intros k. unfold s', new_adj. cbn [tab]. apply (dget_dset Z.eqb decides_Z). }
  assert (O : forall k, dget Z.eqb (objs s') k = if k =? nxt s then Some a else dget Z.eqb (objs s) k).
  { intros k. unfold s', new_adj. cbn [objs]. apply (dget_dset Z.eqb decides_Z). }
  split; [constructor|].
  - unfold s', new_adj. cbn [tab]. apply NoDup_dset; auto using decides_Z. apply (w_nd s W).
  - intros id ser. rewrite T, O. destruct (Z.eqb_spec id (a_id a)) as [->|M].
    + intros H. injection H as <-. rewrite Z.eqb_refl. eauto.
    + intros H. destruct (w_tab s W _ _ H) as (b & B1 & B2). pose proof (L _ _ B1). replace (ser =? nxt s) with false by lia. eauto.
  - intros ser b. rewrite O. unfold s', new_adj. cbn [nxt]. destruct (Z.eqb_spec ser (nxt s)) as [->|M]; [lia|]. intros H. apply (w_lt s W) in H. lia.
  - rewrite T, O, !Z.eqb_refl. repeat split; auto. intros k. unfold ent. rewrite T. destruct (k =? a_id a) eqn:E.
    + rewrite O, Z.eqb_refl. reflexivity.
    + destruct (dget Z.eqb (tab s) k) as [ser|] eqn:Q; [|reflexivity]. destruct (w_tab s W _ _ Q) as (b & B1 & B2). rewrite O. pose proof (L _ _ B1).
      replace (ser =? nxt s) with false by lia. reflexivity.
Qed.
Lemma start_spec : forall s ser a id, wf s -> dget Z.eqb (tab s) id = Some ser -> dget Z.eqb (objs s) ser = Some a ->
  let s' := adj_start s ser in let a' := match a_type a with NPh2 => a | _ => set_tmr a true end in
  wf s' /\ nxt s' = nxt s /\ tab s' = tab s /\ drs s' = drs s /\ dget Z.eqb (objs s') ser = Some a' /\
  (forall k, ent s' k = if k =? id then Some a' else ent s k).
Proof.
  intros s ser a id W T O s' a'. unfold s', adj_start. rewrite (get_obj_some _ _ _ O).
  assert (E0 : ent s id = Some a) by (unfold ent; rewrite T; auto).
  assert (P : forall b, core b = core a -> let s1 := put_obj s ser b in wf s1 /\ nxt s1 = nxt s /\ tab s1 = tab s /\ drs s1 = drs s /\ dget Z.eqb (objs s1) ser = Some b /\ (forall k, ent s1 k = if k =? id then Some b else ent s k)).
  { intros b Cb s1. split; [eapply put_wf; eauto; unfold core in Cb; congruence|]. repeat split; auto.
    - unfold s1. rewrite put_obj_get, Z.eqb_refl. reflexivity.
    - intros k. apply put_ent_at; auto. }
  unfold a'. destruct (a_type a) eqn:Y; try (apply P; reflexivity).
  split; [exact W|]. repeat split; auto. intros k. destruct (Z.eqb_spec k id) as [->|N]; auto.
Qed.
Lemma find_self_spec : forall me p rs bad r, find_self me p rs bad = Ok r ->
  match r with Some _ => In (me, p) rs | None => bad = false /\ forall q, ~ In (me, q) rs end.
Proof.
  induction rs as [|(x, q) rs IH]; intros bad r H; cbn [find_self] in H.
  - destruct bad; [discriminate|]. injection H as <-. auto.
  - destruct (Z.eqb_spec x me) as [->|N].
    + destruct (Z.eqb_spec q p) as [->|M]; [|discriminate]. injection H as <-. left. reflexivity.
    + apply IH in H. destruct r as [[]|]; [right; auto|]. destruct H as [H1 H2]. split; auto. intros q' [E|E]; [congruence|]. exact (H2 _ E).
Qed.
Lemma two_way_spec : forall C s ser a id rs bad ch s' o, wf s -> dget Z.eqb (tab s) id = Some ser -> dget Z.eqb (objs s) ser = Some a ->
  two_way C s ser rs bad ch = Ok (s', o) ->
  wf s' /\ nxt s' = nxt s /\ exists a', core a' = core a /\
  (a_up a' = true <-> In (l_id C, l_prio C) rs) /\
  (forall k, ent s' k = if k =? id then Some a' else ent s k) /\
  (a_up a' = true -> a_type a <> NPh2 -> (a_up a = true -> a_tmr a = true) -> a_tmr a' = true) /\
  (isdr s' = true -> isdr s = true /\ findbestdr C s' = None) /\
  (forall i t, In (LUp i t) o -> i = id /\ t = a_type a /\ a_up a = false /\ a_up a' = true) /\
  (a_up a = false -> a_up a' = true -> In (LUp id (a_type a)) o) /\
  (forall i t, In (LDown i t) o -> i = id /\ t = a_type a /\ a_up a = true /\ a_up a' = false) /\
  (a_up a = true -> a_up a' = false -> In (LDown id (a_type a)) o).
Proof.
  intros C s ser a id rs bad ch s' o W T O H. unfold two_way in H. rewrite (get_obj_some _ _ _ O) in H.
  destruct (find_self (l_id C) (l_prio C) rs bad) as [me|] eqn:F; [|discriminate]. cbn [bind] in H. apply find_self_spec in F.
  assert (I : a_id a = id) by (destruct (w_tab s W _ _ T) as (b & B1 & B2); congruence).
  assert (P : forall b, core b = core a -> let s1 := put_obj s ser b in wf s1 /\ (forall k, ent s1 k = if k =? id then Some b else ent s k)).
  { intros b Cb s1. split; [eapply put_wf; eauto; unfold core in Cb; congruence|]. intros k. apply put_ent_at; auto. }
  (* the change before calcdr *)
  assert (X : exists s1 o1 ch1 a', (match me with
      | Some _ => if a_up a then (s, [], ch) else let '(s', o') := a_goes_up (put_obj s ser (set_up a true)) ser in (s', LEvUp (a_id a) :: o', true)
      | None => if a_up a then let '(s', o') := a_goes_down s ser in
           (put_obj (withtab s' (dset Z.eqb (tab s') (a_id a) ser)) ser (set_up (get_obj s' ser) false), LEvDown (a_id a) :: o', true) else (s, [], ch) end) = (s1, o1, ch1) /\
      wf s1 /\ nxt s1 = nxt s /\ drs s1 = drs s /\ core a' = core a /\ (a_up a' = true <-> In (l_id C, l_prio C) rs) /\
      (forall k, ent s1 k = if k =? id then Some a' else ent s k) /\
      (a_up a' = true -> a_type a <> NPh2 -> (a_up a = true -> a_tmr a = true) -> a_tmr a' = true) /\
      (forall i t, In (LUp i t) o1 -> i = id /\ t = a_type a /\ a_up a = false /\ a_up a' = true) /\
      (a_up a = false -> a_up a' = true -> In (LUp id (a_type a)) o1) /\
      (forall i t, In (LDown i t) o1 -> i = id /\ t = a_type a /\ a_up a = true /\ a_up a' = false) /\
      (a_up a = true -> a_up a' = false -> In (LDown id (a_type a)) o1)).
  { assert (E0 : forall k, ent s k = if k =? id then Some a else ent s k).
    { intros k. destruct (Z.eqb_spec k id) as [->|N]; [|auto]. unfold ent. rewrite T. auto. }
    destruct me as [[]|]; destruct (a_up a) eqn:U.
    - exists s, [], ch, a. split; [reflexivity|]. split; [exact W|]. rewrite U. repeat split; auto; intros; try discriminate; try (match goal with J : In _ [] |- _ => destruct J end).
    - destruct (P (set_up a true) eq_refl) as (W1 & E1).
      assert (O1 : dget Z.eqb (objs (put_obj s ser (set_up a true))) ser = Some (set_up a true)) by (rewrite put_obj_get, Z.eqb_refl; reflexivity).
      destruct (start_spec (put_obj s ser (set_up a true)) ser _ id W1 T O1) as (W2 & N2 & T2 & D2 & O2 & E2).
      cbn [set_up a_type] in E2, O2.
      set (a' := match a_type a with NPh2 => set_up a true | _ => set_tmr (set_up a true) true end).
      assert (Q : (match a_type a with NPh2 => set_up a true | _ => set_tmr (set_up a true) true end) = a') by reflexivity.
      assert (UA : a_up a' = true) by (unfold a'; destruct (a_type a); reflexivity).
      unfold a_goes_up. eexists _, _, _, a'. split; [reflexivity|]. split; [exact W2|]. split; [rewrite N2; reflexivity|]. split; [rewrite D2; reflexivity|].
      split; [unfold a'; destruct (a_type a) eqn:Y; unfold core; cbn; rewrite ?Y; reflexivity|].
      split; [tauto|]. split; [intros k; rewrite E2; destruct (k =? id) eqn:Ek; [reflexivity|rewrite E1, Ek; reflexivity]|].
      split; [intros _ NP _; unfold a'; destruct (a_type a); try reflexivity; congruence|].
      rewrite (get_obj_some _ _ _ O1). cbn [set_up a_id a_type]. rewrite I. split; [intros i t [J|[J|[]]]; [discriminate|]; injection J as <- <-; auto|].
      split; [intros _ _; right; left; reflexivity|]. split; [intros i t [J|[J|[]]]; discriminate|discriminate].
    - destruct F as [F1 F2].
      unfold a_goes_down. rewrite (get_obj_some _ _ _ O).
      assert (T1 : tab (put_obj s ser (set_tmr a false)) = tab s) by reflexivity. rewrite T1.
      assert (T2 : dset Z.eqb (tab s) (a_id a) ser = tab s) by (apply dset_same_id; rewrite I; exact T). rewrite T2.
      assert (G1 : get_obj (put_obj s ser (set_tmr a false)) ser = set_tmr a false) by (rewrite put_get, Z.eqb_refl; reflexivity). rewrite G1.
      set (s1 := withtab (put_obj s ser (set_tmr a false)) (tab s)).
      destruct (P (set_tmr a false) eq_refl) as (W1 & E1).
      assert (S1 : same_adj (put_obj s ser (set_tmr a false)) s1) by (repeat split).
      assert (W1' : wf s1) by (eapply same_wf; eauto).
      assert (O1 : dget Z.eqb (objs s1) ser = Some (set_tmr a false)) by (destruct S1 as (-> & _); rewrite put_obj_get, Z.eqb_refl; reflexivity).
      exists (put_obj s1 ser (set_up (set_tmr a false) false)), [LEvDown (a_id a); LDown (a_id a) (a_type a)], true, (set_up (set_tmr a false) false).
      split; [reflexivity|]. split; [eapply put_wf; eauto|]. split; [reflexivity|]. split; [reflexivity|]. split; [reflexivity|].
      split; [split; [discriminate|intros J; destruct (F2 _ J)]|].
      split; [intros k; rewrite (put_ent_at s1 ser _ id k W1' T); destruct (k =? id) eqn:Ek; [reflexivity|rewrite (same_ent _ _ k S1), E1, Ek; reflexivity]|].
      split; [discriminate|]. rewrite I. split; [intros i t [J|[J|[]]]; discriminate|]. split; [discriminate|].
      split; [intros i t [J|[J|[]]]; [discriminate|]; injection J as <- <-; auto|]. intros _ _. right. left. reflexivity.
    - destruct F as [F1 F2]. exists s, [], ch, a. split; [reflexivity|]. split; [exact W|]. rewrite U.
      repeat split; auto; intros; try discriminate; try (match goal with J : In _ [] |- _ => destruct J | J : In _ rs |- _ => destruct (F2 _ J) end). }
  destruct X as (s1 & o1 & ch1 & a' & EQ & W1 & N1 & D1 & CO & UP & EN & TM & L1 & L2 & L3 & L4). rewrite EQ in H. clear EQ.
  destruct (calcdr C s1) as [s2 o2] eqn:Q. apply (f_equal (fun r => match r with Ok x => x | Err _ => (s, []) end)) in H. cbv beta iota in H.
  assert (H1 : s2 = s') by congruence. assert (H2 : o1 ++ o2 ++ (if ch1 then [LNewHello] else []) = o) by congruence. subst s' o. clear H.
  destruct (calcdr_spec _ _ _ _ Q) as (S2 & _ & I2 & Lo & _).
  split; [eapply same_wf; eauto|]. split; [destruct S2 as (_ & _ & ->); auto|]. exists a'. split; [auto|]. split; [auto|].
  split; [intros k; rewrite (same_ent _ _ k S2); auto|]. split; [auto|].
  split; [intros J; destruct (I2 J) as [J1 J2]; split; auto; unfold drs in D1; congruence|].
  assert (NL : forall x, In x (o1 ++ o2 ++ (if ch1 then [LNewHello] else [])) -> In x o1 \/ x = LNewHello).
  { intros x J. apply in_app_or in J. destruct J as [J|J]; [auto|]. apply in_app_or in J. destruct J as [J|J]; [right; auto|].
    destruct ch1; [destruct J as [J|[]]; auto|destruct J]. }
  split; [intros i t J; apply NL in J; destruct J as [J|J]; [auto|discriminate]|].
  split; [intros J1 J2; apply in_or_app; auto|].
  split; [intros i t J; apply NL in J; destruct J as [J|J]; [auto|discriminate]|].
  intros J1 J2; apply in_or_app; auto.
Qed.

Definition up_timed (s : lst) : Prop := forall id a, ent s id = Some a -> a_up a = true -> a_type a <> NPh2 -> a_tmr a = true.
Record inv (C : lcfg) (s : lst) : Prop := {
  v_wf : wf s;
  v_len : zlen (rids C s) <= l_nr C;
  v_dr : isdr s = true -> findbestdr C s = None;
  v_tm : up_timed s }.
(** What was up and is not any more has been reported, and only what was
    not up before is reported up. *)
Definition reports (s s' : lst) (o : list lout) : Prop :=
  (forall k a, ent s k = Some a -> a_up a = true -> (forall a', ent s' k = Some a' -> a_up a' = false) -> In (LDown k (a_type a)) o) /\
  (forall k a', ent s' k = Some a' -> a_up a' = true -> (forall a, ent s k = Some a -> a_up a = false) -> In (LUp k (a_type a')) o) /\
  (forall k t, In (LUp k t) o -> (forall a, ent s k = Some a -> a_up a = false) /\ exists a', ent s' k = Some a' /\ a_up a' = true /\ a_type a' = t).
Definition listed (C : lcfg) (rs : list (Z * Z)) : Prop := In (l_id C, l_prio C) rs.

Lemma rids_sub : forall C s s', wf s -> wf s' -> (forall id a, ent s' id = Some a -> a_router a = true -> exists b, ent s id = Some b /\ a_router b = true) -> zlen (rids C s') <= zlen (rids C s).
Proof.
  intros C s s' W W' H. apply incl_zlen; [apply NoDup_rids; auto|]. intros id I. apply in_rids in I; auto. destruct I as (a & E & R). apply in_rids; auto. eauto.
Qed.
Lemma rids_eq : forall C s s', wf s -> wf s' -> (forall id, (exists a, ent s' id = Some a /\ a_router a = true) <-> (exists b, ent s id = Some b /\ a_router b = true)) -> zlen (rids C s') = zlen (rids C s).
Proof.
  intros C s s' W W' H. apply Z.le_antisymm; apply rids_sub; auto; intros id a E R; apply H; eauto.
Qed.
Lemma changed_spec : forall a t p, changed a t p = false <-> a_router a = true /\ a_type a = t /\ a_prio a = p.
Proof.
  intros a t p. unfold changed. split.
  - intros H. destruct (a_router a); [|discriminate]. destruct (Z.eqb_spec (a_prio a) p); [|destruct (ntype_eqb (a_type a) t); discriminate].
    destruct (a_type a), t; cbn in H; try discriminate; auto.
  - intros (-> & <- & <-). rewrite Z.eqb_refl. destruct (a_type a); reflexivity.
Qed.

(** The effect of deleting an entry that is in the table. *)
Lemma deladj_known : forall C s ser a id ev s' o, inv C s -> (forall i i' t, ev i <> LUp i' t) -> dget Z.eqb (tab s) id = Some ser -> dget Z.eqb (objs s) ser = Some a -> deladj C s ser ev = (s', o) ->
  inv C s' /\ (forall k, ent s' k = if k =? id then None else ent s k) /\ (a_up a = true -> In (LDown id (a_type a)) o) /\ (forall i t, ~ In (LUp i t) o).
Proof.
  intros C s ser a id ev s' o [W L D T] EV Tb O H. assert (I : a_id a = id) by (destruct (w_tab s W _ _ Tb) as (b & B1 & B2); congruence).
  destruct (deladj_spec _ _ _ _ _ _ _ W O H) as (W' & N' & E' & _ & I' & U' & L'). rewrite I in *.
  assert (X : forall id' a', ent s' id' = Some a' -> ent s id' = Some a') by (intros id' a'; rewrite E'; destruct (id' =? id); [discriminate|auto]).
  split; [|split; [auto|split; [auto|intros i t J; apply L' in J; destruct J as (i' & J); exact (EV _ _ _ J)]]].
  constructor; auto.
  - enough (zlen (rids C s') <= zlen (rids C s)) by lia. apply rids_sub; eauto.
  - intros J. destruct (I' J) as [J1 J2]. auto.
  - intros id' a' J. apply X in J. exact (T _ _ J).
Qed.
Lemma update_blk_same : forall C s, same_adj s (update_blk C s). Proof. intros. repeat split. Qed.
Lemma same_inv : forall C s s', same_adj s s' -> isdr s' = isdr s -> inv C s -> inv C s'.
Proof.
  intros C s s' S I [W L D T]. constructor.
  - eapply same_wf; eauto.
  - unfold rids in *. rewrite (same_routers C true _ _ S). unfold get_obj in *. destruct S as (-> & _). exact L.
  - rewrite I, (same_best C _ _ S). auto.
  - intros id a. rewrite (same_ent _ _ id S). apply T.
Qed.

(** What a router hello does to the table. *)
Definition hello_effect (C : lcfg) (s : lst) (id : Z) (t : ntype) (prio bk : Z) (rs : list (Z * Z)) (s' : lst) : Prop :=
  (exists a, ent s id = Some a /\ (a_router a = false \/ a_type a <> t \/ a_prio a <> prio) /\ forall k, ent s' k = if k =? id then None else ent s k) \/
  (exists a a', ent s id = Some a /\ a_router a = true /\ a_type a = t /\ a_prio a = prio /\ core a' = core a /\ (a_up a' = true <-> listed C rs) /\
     forall k, ent s' k = if k =? id then Some a' else ent s k) \/
  (ent s id = None /\ t = NEnd /\ forall k, ent s' k = ent s k) \/
  (exists a', ent s id = None /\ t <> NEnd /\ core a' = (id, t, prio, bk) /\ (a_up a' = true <-> listed C rs) /\ zlen (rids C s) < l_nr C /\
     forall k, ent s' k = if k =? id then Some a' else ent s k) \/
  (exists a' m am, ent s id = None /\ t <> NEnd /\ core a' = (id, t, prio, bk) /\ (a_up a' = true <-> listed C rs) /\ zlen (rids C s) = l_nr C /\
     ent s m = Some am /\ a_router am = true /\ key_lt (a_prio am, m) (prio, id) = true /\
     (forall k a, ent s k = Some a -> a_router a = true -> k <> m -> key_lt (a_prio am, m) (a_prio a, k) = true) /\
     forall k, ent s' k = if k =? id then Some a' else if k =? m then None else ent s k) \/
  (ent s id = None /\ t <> NEnd /\ zlen (rids C s) = l_nr C /\
     (forall k a, ent s k = Some a -> a_router a = true -> key_lt (prio, id) (a_prio a, k) = true) /\
     forall k, ent s' k = ent s k).
Lemma router_hello_spec : forall C s id t prio bk rs bad s' o, 0 <= l_nr C -> inv C s -> router_hello C s id t prio bk rs bad = Ok (s', o) ->
  inv C s' /\ reports s s' o /\ hello_effect C s id t prio bk rs s'.
Proof.
  intros C s id t prio bk rs bad s' o NR V H. pose proof V as [W L D T]. unfold router_hello in H.
  assert (EV1 : forall i i' t, LEvDown i <> LUp i' t) by (intros; discriminate).
  assert (EV2 : forall i i' t, LEvRej i <> LUp i' t) by (intros; discriminate).
  destruct (dget Z.eqb (tab s) id) as [ser|] eqn:Tb.
  - (* known *)
    destruct (w_tab s W _ _ Tb) as (a & O & I).
    assert (E0 : ent s id = Some a) by (unfold ent; rewrite Tb; auto).
    destruct (start_spec s ser a id W Tb O) as (W1 & N1 & T1 & D1 & O1 & E1).
    set (s1 := adj_start s ser) in *. set (a1 := match a_type a with NPh2 => a | _ => set_tmr a true end) in *.
    assert (Co : core a1 = core a) by (unfold a1; destruct (a_type a) eqn:Y; unfold core; cbn; rewrite ?Y; reflexivity).
    assert (Rt : a_router a1 = a_router a) by (unfold a_router; unfold core in Co; replace (a_type a1) with (a_type a) by congruence; reflexivity).
    assert (Ua : a_up a1 = a_up a) by (unfold a1; destruct (a_type a); reflexivity).
    assert (Ty : a_type a1 = a_type a) by (unfold core in Co; congruence).
    assert (V1 : inv C s1).
    { constructor; auto.
      - enough (zlen (rids C s1) <= zlen (rids C s)) by lia. apply rids_sub; auto. intros k b. rewrite E1. destruct (Z.eqb_spec k id) as [->|]; [|eauto].
        intros J R. injection J as <-. exists a. split; [auto|congruence].
      - intros J. apply best_mono with (s := s); auto; [|apply D; unfold drs in D1; congruence].
        intros k b. rewrite E1. destruct (Z.eqb_spec k id) as [->|]; [|eauto]. intros J' R. injection J' as <-. exists a. unfold core in Co. repeat split; congruence.
      - intros k b. rewrite E1. destruct (Z.eqb_spec k id) as [->|]; [|apply T]. intros J U NP. injection J as <-. unfold a1. destruct (a_type a) eqn:Y; try reflexivity. congruence. }
    assert (Tb1 : dget Z.eqb (tab s1) id = Some ser) by (rewrite T1; auto).
    rewrite (get_obj_some _ _ _ O1) in H. destruct (changed a1 t prio) eqn:Ch.
    + apply (f_equal (fun r => match r with Ok x => x | Err _ => (s, []) end)) in H. cbv beta iota in H.
      destruct (deladj_known _ _ _ _ _ _ _ _ V1 EV1 Tb1 O1 H) as (V' & E' & U' & L').
      assert (EE : forall k, ent s' k = if k =? id then None else ent s k) by (intros k; rewrite E', E1; destruct (k =? id); reflexivity).
      split; [auto|]. split.
      * split; [|split].
        -- intros k b J U X. rewrite Ua, Ty in U'. destruct (Z.eqb_spec k id) as [->|N]; [rewrite E0 in J; injection J as <-; auto|].
           specialize (EE k). replace (k =? id) with false in EE by lia. rewrite J in EE. apply X in EE. congruence.
        -- intros k a' J U X. exfalso. rewrite EE in J. destruct (k =? id); [discriminate|]. apply X in J. congruence.
        -- intros k t' J. destruct (L' _ _ J).
      * left. exists a. split; [auto|]. split; [|auto]. destruct (a_router a) eqn:R; [right|auto].
        destruct (Z.eq_dec (a_prio a) prio) as [P|P]; [|auto]. left. intros Y. assert (X : changed a1 t prio = false) by (apply changed_spec; unfold core in Co; repeat split; congruence). congruence.
    + apply changed_spec in Ch. destruct Ch as (R & Y & P).
      destruct (two_way_spec _ _ _ _ _ _ _ _ _ _ W1 Tb1 O1 H) as (W' & N' & a' & Co' & UP & E' & TM & I' & L1 & L2 & L3 & L4).
      assert (EE : forall k, ent s' k = if k =? id then Some a' else ent s k) by (intros k; rewrite E', E1; destruct (k =? id); reflexivity).
      assert (Rt' : a_router a' = a_router a) by (unfold a_router; unfold core in Co'; replace (a_type a') with (a_type a) by congruence; reflexivity).
      assert (Ty' : a_type a' = a_type a) by (unfold core in Co'; congruence).
      split; [|split].
      * constructor; auto.
        -- enough (zlen (rids C s') <= zlen (rids C s)) by lia. apply rids_sub; auto. intros k b. rewrite EE. destruct (Z.eqb_spec k id) as [->|]; [|eauto].
           intros J Q. injection J as <-. exists a. split; [auto|congruence].
        -- intros J. apply I'. auto.
        -- intros k b. rewrite EE. destruct (Z.eqb_spec k id) as [->|]; [|apply T]. intros J U NP. injection J as <-. apply TM; auto; [congruence|].
           intros U1. apply (v_tm C s1 V1 id a1); [rewrite E1, Z.eqb_refl; auto|auto|congruence].
      * split; [|split].
        -- intros k b J U X. destruct (Z.eqb_spec k id) as [->|N].
           ++ rewrite E0 in J. injection J as <-. rewrite <- Ty. apply L4; [congruence|]. apply X. rewrite EE, Z.eqb_refl. reflexivity.
           ++ exfalso. specialize (X b). rewrite EE in X. replace (k =? id) with false in X by lia. apply X in J. congruence.
        -- intros k b J U X. rewrite EE in J. destruct (Z.eqb_spec k id) as [->|N]; [|exfalso; apply X in J; congruence].
           injection J as <-. rewrite Ty', <- Ty. apply L2; auto. rewrite Ua. apply X. auto.
        -- intros k t' J. destruct (L1 _ _ J) as (-> & -> & J1 & J2). split; [intros b B; rewrite E0 in B; injection B as <-; congruence|].
           exists a'. rewrite EE, Z.eqb_refl. repeat split; auto. congruence.
      * right. left. exists a, a'. unfold core in *. repeat split; auto; try congruence; apply UP.
  - (* new *)
    assert (E0 : ent s id = None) by (unfold ent; rewrite Tb; auto).
    set (a := {| a_id := id; a_type := t; a_prio := prio; a_blk := bk; a_up := false; a_tmr := false |}) in *.
    destruct (new_spec s a W Tb) as (W1 & T1 & O1 & E1 & D1). cbv zeta in *. change (a_id a) with id in *. set (s1 := new_adj s a) in *.
    assert (B1 : isdr s1 = true -> isdr s = true) by (unfold drs in D1; congruence).
    (* routers of s1 *)
    assert (R1 : forall k, In k (rids C s1) <-> (k = id /\ t <> NEnd) \/ In k (rids C s)).
    { intros k. rewrite !in_rids by auto. split.
      - intros (b & J & R). rewrite E1 in J. destruct (Z.eqb_spec k id) as [->|N]; [left|right; eauto]. injection J as <-. split; [auto|]. intros ->. discriminate.
      - intros [[-> N]|(b & J & R)]; [exists a; rewrite E1, Z.eqb_refl; split; [auto|unfold a_router; cbn; destruct t; congruence]|].
        exists b. rewrite E1. destruct (Z.eqb_spec k id) as [->|N]; [congruence|auto]. }
    assert (NI : ~ In id (rids C s)) by (rewrite in_rids by auto; intros (b & J & _); congruence).
    assert (Z1 : zlen (rids C s1) = zlen (rids C s) + match t with NEnd => 0 | _ => 1 end).
    { assert (N1 := NoDup_rids C s1 W1). assert (N0 := NoDup_rids C s W). destruct (match t with NEnd => true | _ => false end) eqn:Y.
      - assert (t = NEnd) by (destruct t; auto; discriminate). subst t. apply Z.le_antisymm.
        + rewrite Z.add_0_r. apply incl_zlen; auto. intros k J. apply R1 in J. destruct J as [[_ J]|J]; [congruence|auto].
        + rewrite Z.add_0_r. apply incl_zlen; auto. intros k J. apply R1. auto.
      - assert (X : t <> NEnd) by (destruct t; congruence). replace (match t with NEnd => 0 | _ => 1 end) with 1 by (destruct t; congruence).
        replace (zlen (rids C s) + 1) with (zlen (id :: rids C s)) by (rewrite zlen_cons; lia). apply Z.le_antisymm.
        + apply incl_zlen; auto. intros k J. apply R1 in J. destruct J as [[-> _]|J]; [left; auto|right; auto].
        + apply incl_zlen; [constructor; auto|]. intros k [<-|J]; apply R1; auto. }
    assert (TMs1 : up_timed s1).
    { intros k b. rewrite E1. destruct (k =? id); [|apply T]. intros J U. injection J as <-. discriminate. }
    (* after the possible displacement *)
    assert (X : exists s2 o2 gone, (match routers C true s1 with
       | [] => (s1, [], false)
       | x :: r => if l_nr C <? zlen (routers C true s1) then
            let m := minby (fun k => sortkey (get_obj s1 k)) x r in
            let rej := if a_up (get_obj s1 m) then [] else [LEvRej (a_id (get_obj s1 m))] in
            let '(s', o') := deladj C s1 m LEvRej in (s', rej ++ o', a_id (get_obj s1 m) =? id) else (s1, [], false) end) = (s2, o2, gone) /\
       wf s2 /\ up_timed s2 /\ (forall i t, ~ In (LUp i t) o2) /\
       (if gone then inv C s2 /\ t <> NEnd /\ zlen (rids C s) = l_nr C /\ (forall k b, ent s k = Some b -> a_router b = true -> key_lt (prio, id) (a_prio b, k) = true) /\ (forall k, ent s2 k = ent s k)
        else dget Z.eqb (tab s2) id = Some (nxt s) /\ dget Z.eqb (objs s2) (nxt s) = Some a /\ (isdr s2 = true -> isdr s1 = true) /\
          (((t = NEnd \/ zlen (rids C s) < l_nr C) /\ forall k, ent s2 k = ent s1 k) \/
           (exists m am, t <> NEnd /\ zlen (rids C s) = l_nr C /\ ent s m = Some am /\ a_router am = true /\ key_lt (a_prio am, m) (prio, id) = true /\
              (forall k b, ent s k = Some b -> a_router b = true -> k <> m -> key_lt (a_prio am, m) (a_prio b, k) = true) /\
              (a_up am = true -> In (LDown m (a_type am)) o2) /\
              forall k, ent s2 k = if k =? m then None else ent s1 k)))).
    { destruct (routers C true s1) as [|x r] eqn:Q.
      - exists s1, [], false. split; [reflexivity|]. split; [auto|]. split; [auto|]. split; [intros i t' []|]. split; [auto|]. split; [auto|]. split; [auto|].
        left. split; [|auto]. rewrite rids_len, Q in Z1. pose proof (zlen_nonneg _ (rids C s)). rewrite zlen_nil in Z1. destruct t; auto; lia.
      - destruct (l_nr C <? zlen (x :: r)) eqn:F.
        + rewrite <- Q in F. rewrite <- rids_len in F. assert (NE : t <> NEnd) by (intros ->; lia).
          assert (Z2 : zlen (rids C s) = l_nr C) by (destruct t; try lia; congruence).
          destruct (minby_spec (fun k => sortkey (get_obj s1 k)) r x) as [IM GM]. cbv zeta. set (m := minby _ x r) in *.
          rewrite <- Q in IM. apply (in_routers C true s1 m W1) in IM. destruct IM as (im & am & Em & Tm & Gm & Rm & _).
          destruct (ent_some _ _ _ W1 Em) as (m' & Tm' & Om & Im). assert (m' = m) by congruence. subst m'.
          destruct (deladj C s1 m LEvRej) as [s2 o2] eqn:DL. rewrite Gm, Im.
          destruct (deladj_spec _ _ _ _ _ _ _ W1 Om DL) as (W2 & N2 & E2 & K2 & I2 & U2 & L2). rewrite Im in *.
          assert (Small : forall k b, ent s1 k = Some b -> a_router b = true -> k <> im -> key_lt (a_prio am, im) (a_prio b, k) = true).
          { intros k b J R NK. destruct (ent_some _ _ _ W1 J) as (j & Tj & Oj & Ij).
            assert (Y : In j (routers C true s1)) by (apply in_routers; auto; exists k, b; rewrite (get_obj_some _ _ _ Oj); auto 7).
            rewrite Q in Y. specialize (GM _ Y). cbv beta in GM. rewrite (get_obj_some _ _ _ Oj), Gm in GM. unfold sortkey in GM. rewrite Ij, Im in GM.
            rewrite key_ge_spec, key_lt_spec in *. cbn [fst snd] in *. lia. }
          assert (NU : forall i t', ~ In (LUp i t') ((if a_up am then [] else [LEvRej im]) ++ o2)).
          { intros i t' J. apply in_app_or in J. destruct J as [J|J]; [destruct (a_up am); [destruct J|destruct J as [J|[]]; discriminate]|].
            apply L2 in J. destruct J as (? & J). discriminate. }
          assert (TM2 : up_timed s2) by (intros k b; rewrite E2; destruct (k =? im); [discriminate|apply TMs1]).
          eexists _, _, _. split; [reflexivity|]. split; [auto|]. split; [auto|]. split; [auto|].
          destruct (Z.eqb_spec im id) as [->|NM].
          * assert (EE : forall k, ent s2 k = ent s k) by (intros k; rewrite E2, E1; destruct (Z.eqb_spec k id) as [->|]; auto).
            assert (Ha : am = a) by (rewrite E1, Z.eqb_refl in Em; congruence). rewrite Ha in Small. clear Ha.
            split; [constructor; auto|]. 
            -- enough (zlen (rids C s2) <= zlen (rids C s)) by lia. apply rids_sub; auto. intros k b J R. rewrite EE in J. eauto.
            -- intros J. apply best_mono with (s := s); auto; [|apply D; apply B1; apply I2; auto]. intros k b J' R. rewrite EE in J'. eauto.
            -- split; [auto|]. split; [auto|]. split; [|auto]. intros k b J R. apply (Small k b); auto; [rewrite E1; destruct (Z.eqb_spec k id) as [->|]; [congruence|auto]|intros ->; congruence].
          * assert (Es : ent s im = Some am) by (rewrite E1 in Em; destruct (Z.eqb_spec im id); [congruence|auto]).
            assert (E2n : ent s2 id = Some a) by (rewrite E2, E1, Z.eqb_refl; destruct (Z.eqb_spec id im); [congruence|reflexivity]).
            assert (Hm : m <> nxt s) by (intros ->; rewrite O1 in Om; injection Om as <-; apply NM; symmetry; exact Im).
            split; [destruct N2 as [_ ->]; rewrite (dget_ddel Z.eqb decides_Z); replace (id =? im) with false by lia; auto|].
            split; [apply K2; auto|]. split; [intros J; apply I2; auto|]. right. exists im, am. split; [auto|]. split; [auto|]. split; [auto|]. split; [auto|].
            split; [apply (Small id a); [rewrite E1, Z.eqb_refl; auto|unfold a_router; cbn; destruct t; congruence|auto]|].
            split; [intros k b J R NK; apply Small; auto; rewrite E1; destruct (Z.eqb_spec k id) as [->|]; [congruence|auto]|].
            split; [intros U; apply in_or_app; right; auto|]. exact E2.
        + exists s1, [], false. split; [reflexivity|]. split; [auto|]. split; [auto|]. split; [intros i t' []|]. split; [auto|]. split; [auto|]. split; [auto|].
          left. split; [|auto]. rewrite <- Q in F. rewrite <- rids_len in F. destruct t; auto; right; lia. }
    destruct X as (s2 & o2 & gone & EQ & W2 & TM2 & NU & X). cbv zeta in EQ; rewrite EQ in H. clear EQ. destruct gone.
    + destruct X as (V2 & NE & Z2 & SM & EE). apply (f_equal (fun r => match r with Ok x => x | Err _ => (s, []) end)) in H. cbv beta iota in H.
      assert (s2 = s') by congruence. assert (o2 = o) by congruence. subst s' o. clear H. split; [auto|]. split; [|right; right; right; right; right; auto].
      split; [|split].
      * intros k b J U X. specialize (X b). rewrite EE in X. apply X in J. congruence.
      * intros k b J U X. rewrite EE in J. apply X in J. congruence.
      * intros k t' J. destruct (NU _ _ J).
    + destruct X as (T2 & O2 & B2 & X). pose proof (update_blk_same C s2) as S3. set (s3 := update_blk C s2) in *.
      assert (W3 : wf s3) by (eapply same_wf; eauto). assert (E3 : forall k, ent s3 k = ent s2 k) by (intros k; apply same_ent; auto).
      assert (T3 : dget Z.eqb (tab s3) id = Some (nxt s)) by (destruct S3 as (_ & -> & _); auto).
      assert (O3 : dget Z.eqb (objs s3) (nxt s) = Some a) by (destruct S3 as (-> & _); auto).
      assert (D3 : isdr s3 = true -> isdr s = true) by (intros J; apply B1, B2; exact J).
      rewrite (get_obj_some _ _ _ O3) in H. destruct (changed a t prio) eqn:Ch.
      * assert (t = NEnd). { destruct t; auto; exfalso; cbv [changed a a_router a_type a_prio ntype_eqb negb] in Ch; rewrite Z.eqb_refl in Ch; discriminate. }
        subst t. destruct X as [(_ & EE)|(m & am & NE & _)]; [|congruence].
        destruct (deladj C s3 (nxt s) LEvDown) as [s4 o4] eqn:DL. assert (s4 = s') by congruence. assert (o2 ++ o4 = o) by congruence. subst s' o. clear H.
        destruct (deladj_spec _ _ _ _ _ _ _ W3 O3 DL) as (W4 & _ & E4 & _ & I4 & U4 & L4). change (a_id a) with id in *.
        assert (E5 : forall k, ent s4 k = ent s k).
        { intros k. rewrite E4, E3, EE, E1. destruct (Z.eqb_spec k id) as [->|]; auto. }
        split; [|split].
        -- constructor; auto.
           ++ enough (zlen (rids C s4) <= zlen (rids C s)) by lia. apply rids_sub; auto. intros k b J R. rewrite E5 in J. eauto.
           ++ intros J. apply best_mono with (s := s); auto; [|apply D, D3, I4; auto]. intros k b J' R. rewrite E5 in J'. eauto.
           ++ intros k b. rewrite E5. apply T.
        -- split; [|split].
           ++ intros k b J U X. specialize (X b). rewrite E5 in X. apply X in J. congruence.
           ++ intros k b J U X. rewrite E5 in J. apply X in J. congruence.
           ++ intros k t' J. apply in_app_or in J. destruct J as [J|J]; [destruct (NU _ _ J)|]. apply L4 in J. destruct J as (? & J). discriminate.
        -- right. right. left. auto.
      * apply changed_spec in Ch. destruct Ch as (Ra & _ & _). assert (NE : t <> NEnd) by (intros ->; discriminate).
        destruct (two_way C s3 (nxt s) rs bad true) as [(s4, o4)|] eqn:TW; [|discriminate]. cbn [bind] in H.
        assert (s4 = s') by congruence. assert (o2 ++ o4 = o) by congruence. subst s' o. clear H.
        destruct (two_way_spec _ _ _ _ _ _ _ _ _ _ W3 T3 O3 TW) as (W4 & _ & a' & Co & UP & E4 & TM4 & I4 & L1 & L2 & L3 & L4).
        change (a_type a) with t in *. change (a_up a) with false in *. change (a_tmr a) with false in *.
        assert (Ty : a_type a' = t) by (unfold core in Co; cbn in Co; congruence).
        assert (Rt : a_router a' = true) by (unfold a_router; rewrite Ty; destruct t; congruence).
        assert (NR' : forall k b, ent s4 k = Some b -> a_router b = true -> k = id \/ exists b', ent s k = Some b' /\ a_router b' = true).
        { intros k b. rewrite E4, E3. destruct (Z.eqb_spec k id) as [->|N]; [auto|]. intros J R. right. exists b. split; [|auto].
          destruct X as [(_ & X)|(m & am & _ & _ & _ & _ & _ & _ & _ & X)]; rewrite X, E1 in J; replace (k =? id) with false in J by lia; [auto|]. destruct (k =? m); [discriminate|auto]. }
        assert (LN : zlen (rids C s4) <= l_nr C).
        { destruct X as [([X|X] & EE)|(m & am & _ & Z2 & Em & Rm & KL & _ & _ & EE)].
          - congruence.
          - enough (zlen (rids C s4) <= zlen (id :: rids C s)) by (rewrite zlen_cons in *; lia). apply incl_zlen; [apply NoDup_rids; auto|].
            intros k J. apply in_rids in J; auto. destruct J as (b & J & R). destruct (NR' _ _ J R) as [->|Y]; [left; auto|right; apply in_rids; auto].
          - enough (Y : zlen (m :: rids C s4) <= zlen (id :: rids C s)) by (rewrite !zlen_cons in Y; lia). apply incl_zlen.
            + constructor; [|apply NoDup_rids; auto]. intros J. apply in_rids in J; auto. destruct J as (b & J & R). rewrite E4, E3, EE, Z.eqb_refl in J.
              destruct (Z.eqb_spec m id) as [->|]; [|discriminate]. congruence.
            + intros k [<-|J]; [right; apply in_rids; eauto|]. apply in_rids in J; auto. destruct J as (b & J & R).
              destruct (NR' _ _ J R) as [->|Y]; [left; auto|right; apply in_rids; auto]. }
        assert (Others : forall k, k <> id -> ent s4 k = ent s2 k) by (intros k N; rewrite E4, E3; replace (k =? id) with false by lia; reflexivity).
        split; [|split].
        -- constructor; auto.
           ++ intros J. apply I4. auto.
           ++ intros k b. destruct (Z.eq_dec k id) as [->|N]; [|rewrite Others by auto; apply TM2]. rewrite E4, Z.eqb_refl. intros J U NP. injection J as <-.
              apply TM4; [exact U|congruence|discriminate].
        -- split; [|split].
           ++ intros k b J U Y. assert (N : k <> id) by congruence. apply in_or_app. left. specialize (Y b). rewrite Others in Y by auto.
              destruct X as [(_ & EE)|(m & am & _ & _ & Em & _ & _ & _ & DN & EE)].
              ** rewrite EE, E1 in Y. replace (k =? id) with false in Y by lia. apply Y in J. congruence.
              ** destruct (Z.eq_dec k m) as [->|M]; [rewrite Em in J; injection J as <-; auto|]. rewrite EE, E1 in Y.
                 replace (k =? m) with false in Y by lia. replace (k =? id) with false in Y by lia. apply Y in J. congruence.
           ++ intros k b J U Y. destruct (Z.eq_dec k id) as [->|N].
              ** rewrite E4, Z.eqb_refl in J. injection J as <-. rewrite Ty. apply in_or_app. right. apply L2; auto.
              ** exfalso. rewrite Others in J by auto. assert (J' : ent s k = Some b).
                 { destruct X as [(_ & EE)|(m & am & _ & _ & _ & _ & _ & _ & _ & EE)]; rewrite EE, E1 in J; replace (k =? id) with false in J by lia; [auto|]. destruct (k =? m); [discriminate|auto]. }
                 apply Y in J'. congruence.
           ++ intros k t' J. apply in_app_or in J. destruct J as [J|J]; [destruct (NU _ _ J)|]. destruct (L1 _ _ J) as (-> & -> & _ & J2).
              split; [intros b B; congruence|]. exists a'. rewrite E4, Z.eqb_refl. auto.
        -- right. right. right. assert (Co' : core a' = (id, t, prio, bk)) by exact Co.
           destruct X as [([X|X] & EE)|(m & am & _ & Z2 & Em & Rm & KL & SM & _ & EE)]; [congruence| |].
           ++ left. exists a'. repeat split; auto; [apply UP|apply UP|]. intros k. rewrite E4, E3, EE, E1. destruct (k =? id); reflexivity.
           ++ right. left. exists a', m, am. split; [auto|]. split; [auto|]. split; [auto|]. split; [exact UP|]. split; [auto|]. split; [auto|]. split; [auto|]. split; [auto|]. split; [auto|].
              intros k. rewrite E4, E3, EE, E1. destruct (k =? id), (k =? m); reflexivity.
Qed.
