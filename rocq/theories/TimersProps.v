(** Properties C03, C04, C05: the timer wheel.

    A history is any sequence of operations of the node thread (start, stop,
    dispatch of a queued timeout) and of the timer thread (tick, test of the
    slot head, removal under the lock, queueing), in any interleaving.  The
    specification talks only about the resulting event sequence:
    [ticks es] counts the clock ticks in [es]; [quiet i es] says that timer [i]
    was not started, stopped or expired in [es] (TimersHist.v, first lines). *)
From Verif Require Import Base TimersModel TimersSpec TimersProofs TimersHist.

(** C03: a timer expires only on the tick it was last set for: the last thing
    that happened to it was a start for [t] ticks, and exactly [t] ticks have
    passed since.  In particular it does not expire after a stop, and not
    twice. *)
Theorem timer_expires_on_its_tick : forall size ops w es pre post i,
  1 <= size -> Forall op_ok ops ->
  run (wheel0 size) ops = Some (w, es) ->
  es = pre ++ VExpire i :: post ->
  exists pre1 t pre2, pre = pre1 ++ VStart i t :: pre2 /\ quiet i pre2 /\ ticks pre2 = t.
Proof.
  intros size ops w es pre post i Hs OK R E. subst es.
  destruct (run_srun _ _ _ _ Hs OK R) as (s & S & _).
  apply prefix_snoc in S as (s1 & S). apply expire_history in S as (p1 & t & p2 & E & Q & D).
  exists p1, t, p2. split; auto. split; auto. subst pre. rewrite ticks_app in D.
  cbn [ticks] in D. lia.
Qed.
Print Assumptions timer_expires_on_its_tick.

(** C03: a timer that is left alone does expire, and not later than its tick:
    once the expiry processing of tick [t] is over, or a later tick has begun,
    it has been started again, stopped or expired. *)
Theorem timer_expires_in_time : forall size ops w es pre i t mid e post,
  1 <= size -> Forall op_ok ops ->
  run (wheel0 size) ops = Some (w, es) ->
  es = pre ++ VStart i t :: mid ++ e :: post ->
  (e = VDrained /\ ticks mid = t) \/ (e = VTick /\ ticks mid = t) ->
  ~ quiet i mid.
Proof.
  intros size ops w es pre i t mid e post Hs OK R E X Q. subst es.
  destruct (run_srun _ _ _ _ Hs OK R) as (s & S & _).
  replace (pre ++ VStart i t :: mid ++ e :: post) with ((pre ++ VStart i t :: mid) ++ e :: post)
    in S by (rewrite <- app_assoc; auto).
  apply prefix_snoc in S as (s1 & S).
  assert (A : armed_by (pre ++ VStart i t :: mid) i (ticks pre + t)) by (exists pre, t, mid; auto).
  destruct X as [[-> X]|[-> X]].
  - pose proof (drained_history _ _ _ _ S A) as L. rewrite ticks_app in L. cbn [ticks] in L. lia.
  - assert (A' : armed_by ((pre ++ VStart i t :: mid) ++ [VTick]) i (ticks pre + t)).
    { apply armed_by_snoc. left. auto. }
    pose proof (overdue_history _ _ _ _ S A') as L. rewrite !ticks_app in L. cbn [ticks] in L. lia.
Qed.
Print Assumptions timer_expires_in_time.

(** C03: [islinked] tells exactly whether the timer is running: the last event
    about it was a start. *)
Theorem timer_islinked_spec : forall size ops w es i,
  1 <= size -> Forall op_ok ops ->
  run (wheel0 size) ops = Some (w, es) ->
  (islinked (w_heap w) (It i) = true <->
   exists pre t post, es = pre ++ VStart i t :: post /\ quiet i post).
Proof.
  intros size ops w es i Hs OK R.
  destruct (run_srun _ _ _ _ Hs OK R) as (s & S & M).
  rewrite (islinked_armed _ _ i M). split.
  - intros (d & Hd). apply (armed_history _ _ S) in Hd as (pre & t & post & E & Q & _). eauto.
  - intros (pre & t & post & E & Q). exists (ticks pre + t). apply (armed_history _ _ S).
    exists pre, t, post. auto.
Qed.
Print Assumptions timer_islinked_spec.

(** C03/C05: what the start event records: the requested number of ticks, at
    least one; a request of [size] ticks or more raises OverflowError and
    changes nothing. *)
Theorem timer_start_spec : forall w i raw, 2 <= w_size w -> 0 <= raw ->
  (raw < w_size w -> exists w', step w (OStart i raw) = Some (w', [VStart i (Z.max 1 raw)])) /\
  (w_size w <= raw -> step w (OStart i raw) = Some (w, [VOverflow i])).
Proof.
  intros w i raw Hs Hr. cbn [step]. destruct (Z.eqb_spec raw 0) as [->|Hne].
  - split; intros H; [|lia]. destruct (Z.geb_spec 1 (w_size w)); [lia|]. eauto.
  - replace (Z.max 1 raw) with raw by lia.
    split; intros H; destruct (Z.geb_spec raw (w_size w)); try lia; eauto.
Qed.
Print Assumptions timer_start_spec.

(** A timeout the code does not reject: negative values.  Such a timer expires
    far too late instead of at once, because the slot index wraps.  (The
    theorems above therefore assume [op_ok]: timeouts are not negative.) *)
Theorem timer_negative_refuted : exists w es,
  run (wheel0 10) [OStart 7 (-1); OTick; OLoop; OTick; OLoop; OTick; OLoop] = Some (w, es) /\
  ~ In (VExpire 7) es /\ islinked (w_heap w) (It 7) = true.
Proof.
  eexists _, _. split; [vm_compute; reflexivity|]. split; [|vm_compute; reflexivity].
  intros H. cbn in H. intuition discriminate.
Qed.
Print Assumptions timer_negative_refuted.

(** C04: a timeout is delivered only if the last thing that happened to the
    timer is the expiry that queued it, and that expiry was not delivered
    before. *)
Theorem timeout_not_stale : forall size ops w es pre post i,
  1 <= size -> Forall op_ok ops ->
  run (wheel0 size) ops = Some (w, es) ->
  es = pre ++ VDeliver i :: post ->
  exists pre1 pre2, pre = pre1 ++ VExpire i :: pre2 /\ quiet i pre2 /\ ~ In (VDeliver i) pre2.
Proof.
  intros size ops w es pre post i Hs OK R E. subst es.
  destruct (run_srun _ _ _ _ Hs OK R) as (s & S & _).
  apply prefix_snoc in S as (s2 & S). apply srun_snoc in S as (s1 & S1 & S2).
  apply (proj1 (fresh_history _ _ S1)).
  cbn [sstep] in S2. destruct (queue s1) as [|[j []] q] eqn:EQ; try discriminate.
  destruct (Z.eqb_spec i j) as [->|]; [|discriminate].
  unfold pending. rewrite EQ. cbn. auto.
Qed.
Print Assumptions timeout_not_stale.

(** C04: and an expiry that nothing invalidates is delivered: once the work
    queue has been emptied, an untouched expiry has been delivered. *)
Theorem timeout_delivered : forall size ops w es pre post i,
  1 <= size -> Forall op_ok ops ->
  run (wheel0 size) ops = Some (w, es) ->
  es = pre ++ VExpire i :: post -> quiet i post ->
  w_thr w = TIdle -> w_q w = [] ->
  In (VDeliver i) post.
Proof.
  intros size ops w es pre post i Hs OK R E Q HT HQ.
  destruct (run_srun _ _ _ _ Hs OK R) as (s & S & M).
  destruct (in_dec (fun a b : ev => ltac:(decide equality; apply Z.eq_dec)) (VDeliver i) post) as [|N]; auto.
  exfalso.
  assert (U : undelivered es i) by (exists pre, post; auto).
  apply (proj1 (fresh_history _ _ S)) in U. unfold pending in U.
  destruct M as [_ _ _ _ _ _ T F]. rewrite HT in T. cbn in T. destruct T as [_ T].
  rewrite T in U. rewrite HQ in F. inversion F as [E0 E1|]. rewrite <- E1 in U. cbn in U. auto.
Qed.
Print Assumptions timeout_delivered.

(** C05: pointer integrity.  At every point each wheel slot is a well formed
    doubly linked ring ([chain]) through distinct timers, a timer is in at most
    one slot, and timers in no slot are self linked. *)
Theorem wheel_integrity : forall size ops w es,
  1 <= size -> Forall op_ok ops ->
  run (wheel0 size) ops = Some (w, es) ->
  exists slots : Z -> list Z,
    (forall s, chain (w_heap w) (Hd s) (map It (slots s)) (Hd s)) /\
    (forall s, NoDup (slots s)) /\
    (forall s s' i, In i (slots s) -> In i (slots s') -> s = s') /\
    (forall i, (forall s, ~ In i (slots s)) ->
       nx (w_heap w) (It i) = It i /\ pv (w_heap w) (It i) = It i).
Proof.
  intros size ops w es Hs OK R.
  destruct (run_srun _ _ _ _ Hs OK R) as (s & S & M). destruct (sim_rep _ _ M) as [A B C D].
  eexists. split; [exact A|]. split; [exact B|]. split; [exact C|exact D].
Qed.
Print Assumptions wheel_integrity.

(** C05: timers due on the same tick expire in the order they were started. *)
Theorem timers_fifo : forall size ops w es pre i t mid j u rest post,
  1 <= size -> Forall op_ok ops ->
  run (wheel0 size) ops = Some (w, es) ->
  es = pre ++ VStart i t :: mid ++ VStart j u :: rest ++ VExpire j :: post ->
  i <> j -> t = ticks mid + u -> quiet j rest ->
  ~ (quiet i mid /\ quiet i rest).
Proof.
  intros size ops w es pre i t mid j u rest post Hs OK R E Hij Ht Qj [Qm Qi]. subst es.
  destruct (run_srun _ _ _ _ Hs OK R) as (s & S & _).
  replace (pre ++ VStart i t :: mid ++ VStart j u :: rest ++ VExpire j :: post)
    with ((pre ++ VStart i t :: mid ++ VStart j u :: rest) ++ VExpire j :: post) in S
    by (rewrite <- app_assoc; cbn; rewrite <- app_assoc; auto).
  apply prefix_snoc in S as (s1 & S).
  eapply (fifo_history pre i t mid j u rest s1); eauto.
  rewrite <- S. f_equal. rewrite <- app_assoc. cbn. rewrite <- app_assoc. auto.
Qed.
Print Assumptions timers_fifo.

(** A concrete history meeting the hypotheses of all of the above: two timers
    due on the same tick, wrap around the wheel, a restart racing with an
    expiry (dropped) and a delivery. *)
Definition demo_ops : list op :=
  [OTick; OLoop; OTick; OLoop; OStart 1 2; OTick; OLoop; OStart 2 1; OStart 3 1;
   OTick; OLoop; OGrab; OPost; OLoop; OGrab; OPost; OLoop; OStop 3; OGrab; OLoop;
   OStart 1 2; ODispatch; ODispatch].
Example demo_run : exists w, run (wheel0 4) demo_ops =
  Some (w, [VTick; VDrained; VTick; VDrained; VStart 1 2; VTick; VDrained; VStart 2 1; VStart 3 1;
            VTick; VExpire 1; VPost 1; VExpire 2; VPost 2; VStop 3; VDrained;
            VStart 1 2; VDrop 1; VDeliver 2]) /\ Forall op_ok demo_ops /\
  w_thr w = TIdle /\ w_q w = [].
Proof.
  eexists. split; [vm_compute; reflexivity|]. split; [|vm_compute; auto].
  repeat constructor; cbn; lia.
Qed.
