(** Properties C12 and C13: bridge forwarding and learning. *)
From Verif Require Import Base Dict BridgeModel.

(** *** Specification: where an address was last heard, read off the history
    alone. *)
Definition f_dest (p : list Z) : list Z := firstn 6 p.
Definition f_src (p : list Z) : list Z := firstn 6 (skipn 6 p).
Definition valid_frame (p : list Z) : Prop := (12 <= length p)%nat.
(** Frames the bridge ignores: too short, or with equal addresses. *)
Definition ignored (p : list Z) : bool := (Nat.ltb (length p) 12) || leqb (f_dest p) (f_src p).
Definition ticks (h : list event) : Z :=
  fold_left (fun n e => match e with Tick => n + 1 | _ => n end) h 0.
(** The history, latest event first: (circuit, time) of the latest frame from
    [a], forgotten by a timeout delivered at least 60 seconds later. *)
Fixpoint heard (rh : list event) (a : list Z) : option (Z * Z) :=
  match rh with
  | [] => None
  | Frame c p :: t => if negb (ignored p) && leqb (f_src p) a then Some (c, ticks (rev t)) else heard t a
  | Tick :: t => heard t a
  | Timeout a' :: t =>
      match heard t a with
      | Some (c, at_) => if leqb a' a && (at_ + 600 <=? ticks (rev t)) then None else Some (c, at_)
      | None => None
      end
  end.
Definition last_heard (h : list event) (a : list Z) : option Z := option_map fst (heard (rev h) a).

Lemma macaddr_dec : forall p, valid_frame p ->
  macaddr (upto 6 p) = Ok (f_dest p) /\ macaddr (upto 6 (from 6 p)) = Ok (f_src p).
Proof.
  intros p V. unfold valid_frame in V. unfold macaddr, upto, from, f_dest, f_src.
  change (Z.to_nat 6) with 6%nat. unfold zlen. rewrite !firstn_length, skipn_length.
  destruct (Z.eqb_spec (Z.of_nat (Nat.min 6 (length p))) 6); [|lia].
  destruct (Z.eqb_spec (Z.of_nat (Nat.min 6 (length p - 6))) 6); [|lia]. auto.
Qed.
Lemma macaddr_short : forall b c p, (length p < 12)%nat -> dispatch b c p = Err EValue.
Proof.
  intros b c p V. unfold dispatch, macaddr, upto, from. change (Z.to_nat 6) with 6%nat. unfold zlen.
  rewrite !firstn_length, skipn_length.
  destruct (Z.eqb_spec (Z.of_nat (Nat.min 6 (length p))) 6); cbn [bind]; [|reflexivity].
  destruct (Z.eqb_spec (Z.of_nat (Nat.min 6 (length p - 6))) 6); [lia|]. reflexivity.
Qed.
Lemma learn_get : forall t db a c x, dget leqb (learn t db a c) x =
  if leqb x a then Some {| ent_circ := c; ent_expires := t + addr_timeout |} else dget leqb db x.
Proof.
  intros. unfold learn. destruct (dget leqb db a) as [ent|].
  - destruct (Z.eqb_spec (ent_circ ent) c) as [<-|]; apply dget_dset, decides_leqb.
  - apply dget_dset, decides_leqb.
Qed.
Lemma leqb_sym : forall a b, leqb a b = leqb b a.
Proof.
  intros. destruct (leqb a b) eqn:E.
  - apply leqb_eq in E. subst. symmetry. apply leqb_eq. reflexivity.
  - destruct (leqb b a) eqn:F; auto. apply leqb_eq in F. subst. rewrite (proj2 (leqb_eq a a) eq_refl) in E. discriminate.
Qed.
Lemma ticks_snoc : forall h e, ticks (h ++ [e]) = match e with Tick => ticks h + 1 | _ => ticks h end.
Proof. intros. unfold ticks. rewrite fold_left_app. reflexivity. Qed.
Lemma run_snoc : forall h b e, run b (h ++ [e]) = fst (step (run b h) e).
Proof. induction h as [|x h IH]; intros; cbn [app run]; auto. Qed.

(** The bridge state agrees with the history. *)
Lemma bridge_state : forall circs h, let b := run (init circs) h in
  circuits b = circs /\ now b = ticks h /\
  forall a, dget leqb (addrdb b) a =
    option_map (fun x => {| ent_circ := fst x; ent_expires := snd x + 600 |}) (heard (rev h) a).
Proof.
  intros circs h. cbv zeta. induction h as [|e h IH] using rev_ind; [repeat split|].
  rewrite run_snoc, rev_unit, ticks_snoc. destruct IH as (C & N & G). set (b := run (init circs) h) in *.
  destruct e as [c p| |a'].
  - cbn [step heard]. unfold ignored. destruct (Nat.ltb_spec (length p) 12) as [S|S]; cbn [orb].
    + rewrite macaddr_short by auto. cbn [fst negb andb]. auto.
    + unfold dispatch. destruct (macaddr_dec p S) as [E1 E2]. rewrite E1, E2. cbn [bind].
      destruct (leqb (f_dest p) (f_src p)) eqn:Q; cbn [negb andb].
      * cbn [fst]. auto.
      * set (db := learn (now b) (addrdb b) (f_src p) c).
        assert (X : forall a, dget leqb db a = option_map (fun x => {| ent_circ := fst x; ent_expires := snd x + 600 |})
                  (if leqb (f_src p) a then Some (c, ticks (rev (rev h))) else heard (rev h) a)).
        { intros a. unfold db. rewrite learn_get, G, leqb_sym. destruct (leqb (f_src p) a); auto.
          cbn [option_map fst snd]. rewrite rev_involutive, N. reflexivity. }
        destruct (dget leqb db (f_dest p)) as [ent|]; [destruct (ent_circ ent =? c)|]; cbn [fst circuits now addrdb]; auto.
  - cbn [step fst circuits now addrdb heard]. rewrite N. auto.
  - cbn [step heard]. specialize (G a') as Ga'. rewrite rev_involutive.
    destruct (heard (rev h) a') as [[c0 t0]|] eqn:Ha.
    + rewrite Ga'. cbn [option_map fst snd ent_expires]. rewrite N. destruct (Z.leb_spec (t0 + 600) (ticks h)) as [L|L].
      * cbn [fst circuits now addrdb]. repeat split; auto. intros a. rewrite dget_ddel by apply decides_leqb.
        rewrite G, leqb_sym. destruct (leqb a' a) eqn:Q.
        -- apply leqb_eq in Q. subst a'. rewrite Ha. cbn [andb]. destruct (Z.leb_spec (t0 + 600) (ticks h)); [reflexivity|lia].
        -- destruct (heard (rev h) a) as [[? ?]|]; reflexivity.
      * cbn [fst]. repeat split; auto. intros a. rewrite G. destruct (leqb a' a) eqn:Q.
        -- apply leqb_eq in Q. subst a'. rewrite Ha. cbn [andb]. destruct (Z.leb_spec (t0 + 600) (ticks h)); [lia|reflexivity].
        -- destruct (heard (rev h) a) as [[? ?]|]; reflexivity.
    + rewrite Ga'. cbn [option_map fst]. repeat split; auto. intros a. rewrite G. destruct (leqb a' a) eqn:Q.
      * apply leqb_eq in Q. subst a'. rewrite Ha. reflexivity.
      * destruct (heard (rev h) a) as [[? ?]|]; reflexivity.
Qed.

(** C13: after any history the recorded circuit is the one of the latest frame
    from the address, unless that entry expired. *)
Theorem bridge_learning : forall circs h a,
  option_map ent_circ (dget leqb (addrdb (run (init circs) h)) a) = last_heard h a.
Proof.
  intros. destruct (bridge_state circs h) as (_ & _ & G). rewrite G. unfold last_heard.
  destruct (heard (rev h) a); reflexivity.
Qed.
Print Assumptions bridge_learning.

(** An address that is heard stays recorded for the next 60 seconds. *)
Lemma ticks_app : forall h h', ticks (h ++ h') = ticks h + ticks h'.
Proof.
  intros h h'. revert h. induction h' as [|e h' IH] using rev_ind; intros h.
  - rewrite app_nil_r. change (ticks []) with 0. lia.
  - rewrite app_assoc, !ticks_snoc, IH. destruct e; lia.
Qed.
Theorem bridge_keeps : forall circs h h' c p, valid_frame p -> f_dest p <> f_src p ->
  ticks h' < 600 -> (forall c' p', In (Frame c' p') h' -> f_src p' <> f_src p) ->
  option_map ent_circ (dget leqb (addrdb (run (init circs) (h ++ [Frame c p] ++ h'))) (f_src p)) = Some c.
Proof.
  intros circs h h' c p V Ne. rewrite bridge_learning. unfold last_heard.
  assert (H : forall h', 0 <= ticks h').
  { induction h'0 as [|e x IH] using rev_ind; [cbn; lia|]. rewrite ticks_snoc. destruct e; lia. }
  assert (X : forall h', ticks h' < 600 -> (forall c' p', In (Frame c' p') h' -> f_src p' <> f_src p) ->
    heard (rev (h ++ [Frame c p] ++ h')) (f_src p) = Some (c, ticks h)).
  { clear h'. induction h' as [|e h' IH] using rev_ind; intros T F.
    - cbn [app]. rewrite rev_unit. cbn [heard]. unfold ignored. rewrite rev_involutive.
      destruct (Nat.ltb_spec (length p) 12); [unfold valid_frame in V; lia|]. cbn [orb].
      destruct (leqb (f_dest p) (f_src p)) eqn:Q; [apply leqb_eq in Q; contradiction|].
      rewrite (proj2 (leqb_eq (f_src p) _) eq_refl). reflexivity.
    - assert (T' : ticks h' <= ticks (h' ++ [e])) by (rewrite ticks_snoc; destruct e; lia).
      specialize (IH ltac:(lia) ltac:(intros; apply (F c'); rewrite in_app_iff; auto)).
      rewrite !app_assoc, rev_unit, <- app_assoc. destruct e as [c' p'| |a]; cbn [heard]; auto.
      + specialize (F c' p' ltac:(rewrite in_app_iff; right; left; reflexivity)).
        destruct (leqb (f_src p') (f_src p)) eqn:Q; [apply leqb_eq in Q; contradiction|]. rewrite andb_false_r. auto.
      + rewrite IH, rev_involutive, !ticks_app. change (ticks [Frame c p]) with 0.
        destruct (Z.leb_spec (ticks h + 600) (ticks h + (0 + ticks h'))); [|rewrite andb_false_r; reflexivity].
        lia. }
  intros T F. rewrite X; auto.
Qed.
Print Assumptions bridge_keeps.

(** C12: what is transmitted when a frame arrives after any history. *)
Definition sent_to (out : list (Z * list Z)) (c : Z) : nat :=
  length (filter (fun o => fst o =? c) out).
Theorem bridge_forwarding : forall circs h c p, NoDup circs -> In c circs ->
  let out := snd (step (run (init circs) h) (Frame c p)) in
  sent_to out c = 0%nat /\
  (forall o, In o out -> snd o = p) /\
  (ignored p = true -> out = []) /\
  (ignored p = false ->
   match last_heard h (f_dest p) with
   | Some c' => forall x, sent_to out x = if (x =? c') && negb (c' =? c) then 1%nat else 0%nat
   | None => forall x, In x circs -> sent_to out x = if x =? c then 0%nat else 1%nat
   end).
Proof.
  intros circs h c p ND Ic. cbv zeta. destruct (bridge_state circs h) as (C & N & G).
  set (b := run (init circs) h) in *. cbn [step]. unfold ignored.
  destruct (Nat.ltb_spec (length p) 12) as [S|S]; cbn [orb].
  { rewrite macaddr_short by auto. cbn [snd sent_to filter length In]. repeat split; auto; try tauto. discriminate. }
  unfold dispatch. destruct (macaddr_dec p S) as [E1 E2]. rewrite E1, E2. cbn [bind].
  destruct (leqb (f_dest p) (f_src p)) eqn:Q.
  { cbn [snd sent_to filter length In]. repeat split; auto; try tauto. discriminate. }
  rewrite learn_get, Q, G. unfold last_heard. destruct (heard (rev h) (f_dest p)) as [[c' t']|]; cbn [option_map fst snd ent_circ].
  - destruct (Z.eqb_spec c' c) as [->|Nc]; cbn [snd negb].
    + repeat split; auto; try (intros; cbn in *; tauto). intros _ x. rewrite andb_false_r. reflexivity.
    + repeat split; try discriminate.
      * unfold sent_to. cbn [filter fst]. destruct (Z.eqb_spec c' c); [lia|reflexivity].
      * intros o [<-|[]]. reflexivity.
      * intros _ x. rewrite andb_true_r, Z.eqb_sym. unfold sent_to. cbn [filter fst]. destruct (c' =? x); reflexivity.
  - cbn [snd]. rewrite C.
    assert (X : forall l x, NoDup l -> In x l ->
      sent_to (map (fun c0 => (c0, p)) (filter (fun c0 => negb (c0 =? c)) l)) x = if x =? c then 0%nat else 1%nat).
    { clear. induction l as [|y l IH]; intros x ND I; [destruct I|]. inversion ND; subst. cbn [filter].
      assert (Z0 : forall l, ~ In x l -> sent_to (map (fun c0 => (c0, p)) (filter (fun c0 => negb (c0 =? c)) l)) x = 0%nat).
      { clear. induction l as [|y l IH]; intros H; auto. cbn [filter]. destruct (y =? c); cbn [negb]; [apply IH; cbn in H; tauto|].
        cbn [map]. unfold sent_to. cbn [filter fst]. destruct (Z.eqb_spec y x) as [->|]; [cbn in H; tauto|].
        apply IH. cbn in H. tauto. }
      destruct I as [->|I].
      - destruct (Z.eqb_spec x c) as [->|Ne]; cbn [negb]; [apply Z0; auto|].
        cbn [map]. unfold sent_to. cbn [filter fst]. rewrite Z.eqb_refl. cbn [length]. f_equal. apply Z0. auto.
      - assert (y <> x) by (intros ->; contradiction). destruct (y =? c); cbn [negb]; auto.
        cbn [map]. unfold sent_to. cbn [filter fst]. destruct (Z.eqb_spec y x); [lia|]. apply IH; auto. }
    repeat split; try discriminate.
    + rewrite X, Z.eqb_refl; auto.
    + intros o H. apply in_map_iff in H as (? & <- & _). reflexivity.
    + intros _ x I. apply X; auto.
Qed.
Print Assumptions bridge_forwarding.

(** A multicast destination is flooded as long as no station used it as a
    source address (which would be an invalid frame); if one did, frames for
    the group are no longer flooded. *)
Theorem bridge_multicast_refuted : exists circs h c p, NoDup circs /\ In c circs /\
  Z.testbit (nth 0 (f_dest p) 0) 0 = true /\ ignored p = false /\
  sent_to (snd (step (run (init circs) h) (Frame c p))) 3 = 0%nat /\ In 3 circs /\ c <> 3.
Proof.
  exists [1; 2; 3], [Frame 2 ([170;0;4;0;1;4] ++ [1;0;0;0;0;1])], 1, ([1;0;0;0;0;1] ++ [170;0;4;0;2;4]).
  repeat split; try reflexivity; cbn; auto; try lia.
  repeat constructor; cbn; intuition discriminate.
Qed.
Print Assumptions bridge_multicast_refuted.

(** The hypotheses are met by a bridge with three circuits: the first frame is
    flooded to both others, the answer goes to the first only, and after a
    minute and the timeout it is flooded again. *)
Example bridge_demo :
  let A := [170;0;4;0;1;4] in let B := [170;0;4;0;2;4] in
  let h1 := [Frame 1 (B ++ A)] in let h2 := h1 ++ [Frame 2 (A ++ B)] in
  let h3 := h2 ++ repeat Tick 600 ++ [Timeout A] in
  snd (step (run (init [1;2;3]) []) (Frame 1 (B ++ A))) = [(2, B ++ A); (3, B ++ A)] /\
  snd (step (run (init [1;2;3]) h1) (Frame 2 (A ++ B))) = [(1, A ++ B)] /\
  last_heard h2 A = Some 1 /\ last_heard h3 A = None /\
  snd (step (run (init [1;2;3]) h3) (Frame 2 (A ++ B))) = [(1, A ++ B); (3, A ++ B)].
Proof. vm_compute. repeat split. Qed.
