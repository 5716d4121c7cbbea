(** C79: the poll of a node by the mapper asks its questions in order, reports exactly
    once, cannot hang, and reports exactly what the node answered. *)
From Verif Require Import Base PollModel.

(** * Specification *)
(** What a poller can be given: an answer to the connect first, data while the
    connection is there, a timeout only of a timer that runs (timers.py 105-124). *)
Definition allowed (p : poller) (i : input) : Prop :=
  match i with
  | IAccept _ | IReject _ => p_state p = PConnecting /\ p_closed p = false
  | IData _ | IDisc | IOther => p_closed p = false
  | ITimeout => p_timer p = true
  end.
Fixpoint fair (c : pcfg) (p : poller) (l : list input) : Prop :=
  match l with [] => True | i :: t => allowed p i /\ fair c (pstep c p i) t end.
Definition prefix {A} (a b : list A) : Prop := exists x, b = a ++ x.
(** The messages of a complete answer: one message, or a number of them between a
    header and an end message; from a Phase II node a count and so many. *)
Definition says (m : msg) (r : reply) : Prop := (exists k, g_code m = Some k /\ 0 <= k /\ k <> 2) /\ g_body m = Some r.
Inductive framed : list reply -> list msg -> Prop :=
| fr_one m r : says m r -> framed [r] [m]
| fr_many h e ms rs : g_code h = Some 2 -> g_code e = Some (-128) -> Forall2 says ms rs -> framed rs (h :: ms ++ [e]).
Definition framed2 (rs : list reply) (ms : list msg) : Prop :=
  exists h t, ms = h :: t /\ g_code h = Some 1 /\ g_count h = Some (zlen rs) /\ Forall2 (fun m r => g_body m = Some r) t rs.

(** * Lemmas *)
Definition upto (r : request) : list request :=
  match r with RqExec => [RqExec] | RqCirc => [RqExec; RqCirc] | RqNode => [RqExec; RqCirc; RqNode] | RqP2Exec => [RqP2Exec] | RqP2Line => [RqP2Exec; RqP2Line] end.
Definition pinv (p : poller) : Prop :=
  (if p_closed p then p_timer p = false /\ p_reports p = [p_todo p]
   else p_reports p = [] /\ p_timer p = match p_state p with PPolling => true | PConnecting => false end) /\
  p_sent p = match p_state p with PPolling => upto (p_req p) | PConnecting => [] end.
Lemma fin_inv p : pinv p -> p_closed p = false -> pinv (finished p).
Proof.
  intros [A B] C. rewrite C in A. destruct A as [A1 A2]. unfold pinv, finished.
  cbn [p_closed p_timer p_reports p_todo p_sent p_state p_req]. rewrite A1. auto.
Qed.
Lemma next_inv c r p : pinv p -> p_closed p = false -> p_sent p ++ [r] = upto r -> pinv (next_request c r p).
Proof.
  intros I C U. unfold next_request. destruct (c_fail c r); [exact (fin_inv p I C) |].
  destruct I as [A _]. rewrite C in A. unfold pinv. cbn [p_closed p_timer p_reports p_todo p_sent p_state p_req]. rewrite C, U. tauto.
Qed.
Lemma add_inv l p : pinv p -> p_closed p = false -> pinv (add_todo l p).
Proof.
  intros [A B] C. rewrite C in A. unfold pinv, add_todo. cbn [p_closed p_timer p_reports p_todo p_sent p_state p_req]. rewrite C. auto.
Qed.
Lemma handler_inv c l p : pinv p -> p_closed p = false -> p_state p = PPolling -> pinv (handler c l p).
Proof.
  intros I C S. pose proof (proj2 I) as B. rewrite S in B. unfold handler. destruct (p_req p).
  - apply next_inv; [exact I | exact C | rewrite B; reflexivity].
  - destruct (c_self c); [apply fin_inv; [exact (add_inv _ p I C) | exact C] |]. apply next_inv; [exact (add_inv _ p I C) | exact C |].
    cbn [add_todo p_sent]. rewrite B. reflexivity.
  - apply fin_inv; [exact (add_inv _ p I C) | exact C].
  - apply next_inv; [exact I | exact C | rewrite B; reflexivity].
  - apply fin_inv; [exact (add_inv _ p I C) | exact C].
Qed.
Lemma wait_inv l m n p : pinv p -> p_closed p = false -> p_state p = PPolling -> pinv (wait p l m n).
Proof.
  intros [A B] C S. rewrite C, S in A. rewrite S in B. unfold pinv, wait. cbn [p_closed p_timer p_reports p_todo p_sent p_state p_req]. rewrite C, S. tauto.
Qed.
Ltac data_cases H := unfold data in H;
  repeat match type of H with
         | (if ?b then _ else _) = _ => destruct b eqn:?
         | match ?x with _ => _ end = _ => destruct x eqn:?
         end; try discriminate H; injection H as <-.
Lemma data_inv c m p p' : pinv p -> p_closed p = false -> p_state p = PPolling -> data c m p = Some p' -> pinv p'.
Proof.
  intros I C S H. data_cases H; first [apply fin_inv; assumption | apply handler_inv; assumption | apply wait_inv; assumption].
Qed.
Lemma step_inv c p i : pinv p -> allowed p i -> pinv (pstep c p i).
Proof.
  intros I A. unfold pstep. destruct (p_state p) eqn:S.
  - destruct i as [ph2 | r | m | | |]; try exact I; destruct A as [_ C].
    + apply next_inv; [| exact C |].
      * destruct I as [A B]. rewrite C, S in A. rewrite S in B. unfold pinv. cbn [set_phase2 mark_up p_closed p_timer p_reports p_todo p_sent p_state p_req]. rewrite C, S. tauto.
      * cbn [set_phase2 mark_up p_sent]. destruct I as [_ B]. rewrite S in B. rewrite B. destruct ph2; reflexivity.
    + destruct ((r =? UNREACH) || (r =? OBJ_FAIL)); [exact (fin_inv p I C) |]. apply fin_inv; [| exact C].
      destruct I as [A B]. rewrite C, S in A. rewrite S in B. unfold pinv. cbn [mark_up p_closed p_timer p_reports p_todo p_sent p_state p_req]. rewrite C, S. tauto.
  - assert (C : p_closed p = false).
    { destruct i as [ph2 | r | m | | |]; cbn [allowed] in A; try tauto.
      destruct (p_closed p) eqn:C; [| reflexivity]. destruct I as [I _]. rewrite C in I. destruct I as [I _]. congruence. }
    destruct i as [ph2 | r | m | | |]; try exact (fin_inv p I C).
    destruct (data c m p) as [p' |] eqn:D; [| exact I]. exact (data_inv c m p p' I C S D).
Qed.
Lemma run_inv c l : forall p, pinv p -> fair c p l -> pinv (fold_left (pstep c) l p).
Proof. induction l as [| i t IH]; intros p I F; [exact I |]. destruct F as [A F]. exact (IH _ (step_inv c p i I A) F). Qed.
Lemma inv0 : pinv poll0.
Proof. split; [split; reflexivity | reflexivity]. Qed.

(** * Theorems *)
(** Whatever the node answers, in any order: a poll has reported once if it is over and
    not at all if it goes on; while it waits for an answer to a request its timer runs,
    and when that expires it is over; its requests are the first of the three, or of the
    two for a Phase II node, in order. *)
Theorem poll_once c l : fair c poll0 l ->
  let p := prun c l in
  length (p_reports p) = (if p_closed p then 1 else 0)%nat /\
  (p_closed p = false -> p_state p = PPolling -> p_timer p = true /\ allowed p ITimeout /\ p_closed (pstep c p ITimeout) = true) /\
  (prefix (p_sent p) [RqExec; RqCirc; RqNode] \/ prefix (p_sent p) [RqP2Exec; RqP2Line]).
Proof.
  intros F. cbv zeta. pose proof (run_inv c l poll0 inv0 F) as [A B]. fold (prun c l) in A, B. split; [| split].
  - destruct (p_closed (prun c l)); destruct A as [A1 A2]; [rewrite A2 | rewrite A1]; reflexivity.
  - intros C S. rewrite C, S in A. destruct A as [_ A]. split; [exact A |]. split; [exact A |]. unfold pstep. rewrite S. reflexivity.
  - rewrite B. destruct (p_state (prun c l)); [left; eexists; reflexivity |].
    destruct (p_req (prun c l)); first [left; eexists; reflexivity | right; eexists; reflexivity].
Qed.
Print Assumptions poll_once.

(** The node is marked as up exactly if it accepted the connection, or refused it for a
    reason other than that it could not be reached or that its object failed. *)
Theorem poll_up c l : fair c poll0 l ->
  (p_up (prun c l) = true <-> exists i, In i l /\ match i with IAccept _ => True | IReject r => r <> 38 /\ r <> 39 | _ => False end).
Proof.
  assert (G : forall l p, pinv p -> fair c p l -> (p_up (fold_left (pstep c) l p) = true <->
    p_up p = true \/ exists i, In i l /\ match i with IAccept _ => True | IReject r => r <> 38 /\ r <> 39 | _ => False end)).
  { clear l. induction l as [| i t IH]; intros p I F; cbn [fold_left].
    - split; [auto | intros [H | (i & [] & _)]; exact H].
    - destruct F as [A F]. rewrite (IH _ (step_inv c p i I A) F).
      assert (N : forall r q, p_up (next_request c r q) = p_up q) by (intros r q; unfold next_request; destruct (c_fail c r); reflexivity).
      assert (H : forall q r, p_up (handler c r q) = p_up q).
      { intros q r. unfold handler. destruct (p_req q); rewrite ?N; try reflexivity. destruct (c_self c); rewrite ?N; reflexivity. }
      assert (S : p_up (pstep c p i) = true <-> p_up p = true \/ match i with IAccept _ => True | IReject r => r <> 38 /\ r <> 39 | _ => False end).
      { unfold pstep. destruct (p_state p) eqn:ST.
        - destruct i as [ph2 | r | m | | |]; try tauto.
          + rewrite N. cbn. tauto.
          + unfold UNREACH, OBJ_FAIL. destruct (Z.eqb_spec r 39), (Z.eqb_spec r 38); cbn; intuition lia.
        - destruct i as [ph2 | r | m | | |]; cbn [finished p_up]; try tauto; [destruct A; congruence | destruct A; congruence |].
          destruct (data c m p) as [p' |] eqn:D; [| tauto].
          assert (E : p_up p' = p_up p) by (data_cases D; rewrite ?H; reflexivity). rewrite E. tauto. }
      rewrite S. split.
      + intros [[X | X] | (j & J & X)]; [auto | right; exists i; split; [left; reflexivity | exact X] | right; exists j; split; [right; exact J | exact X]].
      + intros [X | (j & [<- | J] & X)]; [auto | auto | right; exists j; auto]. }
  intros F. unfold prun. rewrite (G l poll0 inv0 F). cbn [poll0 p_up]. split; [intros [H | H]; [discriminate H | exact H] | auto].
Qed.
Print Assumptions poll_up.

(** Every node reported was in a message: as a neighbour on a circuit, or as active. *)
Definition mentions (l : list input) (x : Z) : Prop :=
  exists m, In (IData m) l /\ ((exists ci, g_body m = Some (RCirc ci (Some x))) \/ g_body m = Some (RNode x true)).
Theorem poll_sound c l x rep : In rep (p_reports (prun c l)) -> In x rep -> mentions l x.
Proof.
  (* what is stored comes from messages *)
  assert (G : forall pre, let p := prun c pre in
    (forall r, In r (p_replies p) -> exists m, In (IData m) pre /\ g_body m = Some r) /\
    (forall y, In y (p_todo p) -> mentions pre y) /\
    (forall rp y, In rp (p_reports p) -> In y rp -> mentions pre y)).
  { induction pre as [| i pre IH] using rev_ind; cbv zeta.
    - cbn. repeat split; intros; tauto.
    - unfold prun. rewrite fold_left_app. cbn [fold_left]. fold (prun c pre). cbv zeta in IH. set (p := prun c pre) in *. clearbody p.
      assert (W : forall y, mentions pre y -> mentions (pre ++ [i]) y).
      { intros y (m & M & Q). exists m. split; [apply in_app_iff; left; exact M | exact Q]. }
      destruct IH as (A & B & D).
      set (K := fun q : poller => (forall r, In r (p_replies q) -> exists m, In (IData m) (pre ++ [i]) /\ g_body m = Some r) /\
         (forall y, In y (p_todo q) -> mentions (pre ++ [i]) y) /\ (forall rp y, In rp (p_reports q) -> In y rp -> mentions (pre ++ [i]) y)).
      change (K (pstep c p i)).
      assert (KP : K p).
      { split; [intros r R; destruct (A r R) as (m & M & Q); exists m; split; [apply in_app_iff; left; exact M | exact Q] |]. split; [auto |]. intros rp y R Y. apply W. exact (D rp y R Y). }
      assert (KF : forall q, K q -> K (finished q)).
      { intros q (X & Y & Z). split; [exact X |]. split; [exact Y |]. cbn [finished p_reports]. intros rp y R. apply in_app_iff in R as [R | [<- | []]]; [exact (Z rp y R) | exact (Y y)]. }
      assert (KN : forall r q, K q -> K (next_request c r q)).
      { intros r q Q. unfold next_request. destruct (c_fail c r); [exact (KF q Q) |]. destruct Q as (X & Y & Z). split; [intros r' [] |]. split; assumption. }
      assert (KA : forall ls q, K q -> (forall y, In y ls -> mentions (pre ++ [i]) y) -> K (add_todo ls q)).
      { intros ls q (X & Y & Z) L. split; [exact X |]. split; [| exact Z]. cbn [add_todo p_todo]. intros y I. apply in_app_iff in I as [I | I]; auto. }
      assert (KH : forall rs q, K q -> (forall r, In r rs -> exists m, In (IData m) (pre ++ [i]) /\ g_body m = Some r) -> K (handler c rs q)).
      { intros rs q Q R.
        assert (NB : forall y, In y (neighbours c rs) -> mentions (pre ++ [i]) y).
        { intros y Y. apply in_flat_map in Y as (r & R1 & Y). destruct r as [ci [n |] | n act |]; try destruct Y.
          destruct (c_full c || c_nowup c ci n); [| destruct Y]. destruct Y as [<- | []]. destruct (R _ R1) as (m & M & Bm). exists m. split; [exact M | left; exists ci; exact Bm]. }
        assert (AC : forall y, In y (actives c rs) -> mentions (pre ++ [i]) y).
        { intros y Y. apply in_flat_map in Y as (r & R1 & Y). destruct r as [ci an | n [|] |]; try destruct Y.
          destruct (c_full c); [| destruct Y]. destruct Y as [<- | []]. destruct (R _ R1) as (m & M & Bm). exists m. split; [exact M | right; exact Bm]. }
        unfold handler. destruct (p_req q); auto. destruct (c_self c); auto. }
      assert (KU : K (mark_up p)) by exact KP.
      unfold pstep. destruct (p_state p).
      + destruct i as [ph2 | r | m | | |]; try exact KP.
        * apply KN. exact KP.
        * destruct ((r =? UNREACH) || (r =? OBJ_FAIL)); apply KF; assumption.
      + destruct i as [ph2 | r | m | | |]; try (apply KF; exact KP).
        destruct (data c m p) as [p' |] eqn:E; [| exact KP].
        assert (RS : forall r, In r (p_replies p) -> exists m', In (IData m') (pre ++ [IData m]) /\ g_body m' = Some r) by (exact (proj1 KP)).
        assert (RN : forall r0, g_body m = Some r0 -> forall r, In r (p_replies p ++ [r0]) -> exists m', In (IData m') (pre ++ [IData m]) /\ g_body m' = Some r).
        { intros r0 B0 r R. apply in_app_iff in R as [R | [<- | []]]; [exact (RS r R) |]. exists m. split; [apply in_app_iff; right; left; reflexivity | exact B0]. }
        assert (KW : forall ls mu n, (forall r, In r ls -> exists m', In (IData m') (pre ++ [IData m]) /\ g_body m' = Some r) -> K (wait p ls mu n)).
        { intros ls mu n L. destruct KP as (X & Y & Z). split; [exact L |]. split; assumption. }
        data_cases E; first [apply KF; exact KP | apply KH; [exact KP | first [exact RS | apply RN; reflexivity]] | apply KW; first [exact RS | apply RN; reflexivity | intros r []]]. }
  intros R X. destruct (G l) as (_ & _ & D). exact (D rep x R X).
Qed.
Print Assumptions poll_sound.

(** A complete answer makes the handler of the request run on its replies. *)
Definition same (p q : poller) : Prop :=
  p_state p = p_state q /\ p_req p = p_req q /\ p_phase2 p = p_phase2 q /\ p_todo p = p_todo q /\ p_up p = p_up q /\
  p_closed p = p_closed q /\ p_reports p = p_reports q /\ p_sent p = p_sent q.
Definition fresh (p : poller) : Prop := p_state p = PPolling /\ p_replies p = [] /\ p_mult p = false /\ p_count p = None.
Definition feed (c : pcfg) (ms : list msg) (p : poller) : poller := fold_left (pstep c) (map IData ms) p.
Lemma feed_app c a b p : feed c (a ++ b) p = feed c b (feed c a p).
Proof. unfold feed. rewrite map_app. apply fold_left_app. Qed.
Lemma feed_cons c m t p : p_state p = PPolling -> feed c (m :: t) p = feed c t (match data c m p with Some p' => p' | None => p end).
Proof. intros S. unfold feed. cbn [map fold_left]. unfold pstep at 2. rewrite S. reflexivity. Qed.
Lemma says_code m r : says m r -> exists k, g_code m = Some k /\ (k =? -128) = false /\ (k <? 0) = false /\ (k =? 2) = false.
Proof. intros [(k & K & G & N) _]. exists k. split; [exact K |]. split; [apply Z.eqb_neq; lia |]. split; [apply Z.ltb_ge; lia | apply Z.eqb_neq; exact N]. Qed.
Lemma many_run c ms rs : Forall2 says ms rs -> forall p, p_state p = PPolling -> p_phase2 p = false -> p_mult p = true ->
  exists q, feed c ms p = q /\ same p q /\ p_replies q = p_replies p ++ rs.
Proof.
  intros F. induction F as [| m r ms rs M F IH]; intros p S P U.
  - exists p. split; [reflexivity |]. split; [repeat split; reflexivity |]. rewrite app_nil_r. reflexivity.
  - destruct (says_code m r M) as (k & K & K1 & K2 & K3). rewrite (feed_cons c m ms p S). unfold data. rewrite P, K, K1, K2, K3, (proj2 M). cbv zeta. rewrite U.
    destruct (IH (wait p (p_replies p ++ [r]) true (p_count p)) S P eq_refl) as (q & Q & A & R). exists q. split; [exact Q |].
    split; [exact A |]. rewrite R. cbn [wait p_replies]. rewrite <- app_assoc. reflexivity.
Qed.
Lemma framed_run c rs ms p : framed rs ms -> fresh p -> p_phase2 p = false -> exists q, feed c ms p = handler c rs q /\ same p q.
Proof.
  intros F (S & R & U & N) P. destruct F as [m r M | h e ms rs H E F].
  - destruct (says_code m r M) as (k & K & K1 & K2 & K3). exists p. rewrite (feed_cons c m [] p S). unfold data. rewrite P, K, K1, K2, K3, (proj2 M). cbv zeta. rewrite U, R.
    split; [reflexivity | repeat split; reflexivity].
  - rewrite (feed_cons c h (ms ++ [e]) p S). unfold data. rewrite P, H. cbn [Z.eqb Z.ltb Z.compare Pos.eqb]. rewrite R. rewrite feed_app.
    destruct (many_run c ms rs F (wait p [] true (p_count p)) S P eq_refl) as (q & -> & A & Q). cbn [wait p_replies app] in Q.
    exists q. assert (SQ : p_state q = PPolling) by (destruct A as (A & _); rewrite <- A; exact S).
    assert (PQ : p_phase2 q = false) by (destruct A as (_ & _ & A & _); rewrite <- A; exact P).
    rewrite (feed_cons c e [] q SQ). unfold data. rewrite PQ, E. cbn [Z.eqb Pos.eqb]. rewrite Q. split; [reflexivity | exact A].
Qed.
Lemma many2_run c ms rs : Forall2 (fun m r => g_body m = Some r) ms rs -> rs <> [] -> forall p, p_state p = PPolling -> p_phase2 p = true -> p_count p = Some (zlen rs) ->
  exists q, feed c ms p = handler c (p_replies p ++ rs) q /\ same p q.
Proof.
  intros F. induction F as [| m r ms rs M F IH]; intros NE p S P N; [congruence |].
  rewrite (feed_cons c m ms p S). unfold data. rewrite P, N, M. cbv zeta. rewrite zlen_cons.
  destruct rs as [| r2 rs].
  - inversion F. replace (1 + zlen (@nil reply) - 1 =? 0) with true by reflexivity. exists p. split; [reflexivity | repeat split; reflexivity].
  - pose proof (zlen_nonneg _ rs) as Z0. rewrite !zlen_cons in *.
    destruct (Z.eqb_spec (1 + (1 + zlen rs) - 1) 0); [lia |].
    destruct (IH ltac:(discriminate) (wait p (p_replies p ++ [r]) (p_mult p) (Some (1 + (1 + zlen rs) - 1))) S P) as (q & Q & A).
    { cbn [wait p_count]. f_equal. lia. }
    exists q. split; [| exact A]. rewrite Q. cbn [wait p_replies]. rewrite <- app_assoc. reflexivity.
Qed.
Lemma framed2_run c rs ms p : framed2 rs ms -> fresh p -> p_phase2 p = true -> exists q, feed c ms p = handler c rs q /\ same p q.
Proof.
  intros (h & t & -> & H & N & F) (S & R & U & C) P. rewrite (feed_cons c h t p S). unfold data. rewrite P, C, H, N. cbn [Z.eqb Pos.eqb negb].
  destruct rs as [| r rs].
  - inversion F. cbn [zlen]. replace (zlen (@nil reply) =? 0) with true by reflexivity. rewrite R. exists p. split; [reflexivity | repeat split; reflexivity].
  - pose proof (zlen_nonneg _ rs) as Z0. rewrite zlen_cons. destruct (Z.eqb_spec (1 + zlen rs) 0); [lia |].
    destruct (many2_run c t (r :: rs) F ltac:(discriminate) (wait p (p_replies p) (p_mult p) (Some (1 + zlen rs))) S P) as (q & Q & A).
    { cbn [wait p_count]. rewrite zlen_cons. reflexivity. }
    exists q. split; [| exact A]. rewrite Q. cbn [wait p_replies]. rewrite R. reflexivity.
Qed.
Lemma nb_in c l x : In x (neighbours c l) <-> exists ci, In (RCirc ci (Some x)) l /\ (c_full c = true \/ c_nowup c ci x = true).
Proof.
  unfold neighbours. rewrite in_flat_map. split.
  - intros (r & R & X). destruct r as [ci [n |] | n a |]; try destruct X.
    destruct (c_full c || c_nowup c ci n) eqn:E; [| destruct X]. destruct X as [<- | []]. exists ci. split; [exact R |]. apply orb_true_iff. exact E.
  - intros (ci & R & E). eexists. split; [exact R |]. cbn. apply orb_true_iff in E. rewrite E. left. reflexivity.
Qed.
Lemma act_in c l x : In x (actives c l) <-> In (RNode x true) l /\ c_full c = true.
Proof.
  unfold actives. rewrite in_flat_map. split.
  - intros (r & R & X). destruct r as [ci an | n [|] |]; try destruct X. destruct (c_full c); [| destruct X]. destruct X as [<- | []]. auto.
  - intros [R F]. eexists. split; [exact R |]. cbn. rewrite F. left. reflexivity.
Qed.

(** If the node answers the requests completely, the poll sends all of them, ends, and
    reports exactly, in a full scan, the neighbours on the circuits and the active nodes
    (for the mapper's own node the circuits only), in another the neighbours that have
    just come up. *)
Theorem poll_full c re rc rn me mc mn : (forall r, c_fail c r = false) ->
  framed re me -> framed rc mc -> (c_self c = false -> framed rn mn) -> (c_self c = true -> mn = []) ->
  let p := prun c (IAccept false :: map IData (me ++ mc ++ mn)) in
  p_closed p = true /\ p_up p = true /\
  p_sent p = (if c_self c then [RqExec; RqCirc] else [RqExec; RqCirc; RqNode]) /\
  exists todo, p_reports p = [todo] /\
    forall x, In x todo <-> (exists ci, In (RCirc ci (Some x)) rc /\ (c_full c = true \/ c_nowup c ci x = true)) \/
      (c_self c = false /\ c_full c = true /\ In (RNode x true) rn).
Proof.
  intros NF FE FC FN SN. cbv zeta. unfold prun. cbn [fold_left].
  match goal with |- context[fold_left (pstep c) (map IData ?ms) ?q] => change (fold_left (pstep c) (map IData ms) q) with (feed c ms q) end.
  assert (E0 : pstep c poll0 (IAccept false) = mkP PPolling RqExec [] false None false true [] true false [] [RqExec]) by (unfold pstep, next_request; cbn; rewrite NF; reflexivity).
  rewrite E0, feed_app.
  destruct (framed_run c re me (mkP PPolling RqExec [] false None false true [] true false [] [RqExec]) FE (conj eq_refl (conj eq_refl (conj eq_refl eq_refl))) eq_refl) as (q & -> & A).
  destruct A as (A1 & A2 & A3 & A4 & A5 & A6 & A7 & A8). cbn in A1, A2, A3, A4, A5, A6, A7, A8.
  assert (E1 : handler c re q = mkP PPolling RqCirc [] false None false true [] true false [] [RqExec; RqCirc]).
  { unfold handler. rewrite <- A2. unfold next_request. rewrite NF, <- A3, <- A4, <- A5, <- A6, <- A7, <- A8. reflexivity. }
  rewrite E1. clear E1.
  rewrite feed_app.
  destruct (framed_run c rc mc (mkP PPolling RqCirc [] false None false true [] true false [] [RqExec; RqCirc]) FC (conj eq_refl (conj eq_refl (conj eq_refl eq_refl))) eq_refl) as (q2 & -> & B).
  clear q A1 A2 A3 A4 A5 A6 A7 A8. destruct B as (A1 & A2 & A3 & A4 & A5 & A6 & A7 & A8). cbn in A1, A2, A3, A4, A5, A6, A7, A8.
  destruct (c_self c) eqn:SE.
  - rewrite (SN eq_refl). unfold handler. rewrite <- A2. cbv zeta. rewrite SE. cbn. rewrite <- A4, <- A5, <- A7, <- A8. cbn [app]. split; [reflexivity |]. split; [reflexivity |]. split; [reflexivity |].
    exists (neighbours c rc). split; [reflexivity |]. intros x. rewrite (nb_in c rc x). split; [auto | intros [H | [H _]]; [exact H | discriminate H]].
  - assert (E1 : handler c rc q2 = mkP PPolling RqNode [] false None false true (neighbours c rc) true false [] [RqExec; RqCirc; RqNode]).
    { unfold handler. rewrite <- A2. cbv zeta. rewrite SE. unfold next_request. rewrite NF. cbn [add_todo p_phase2 p_todo p_up p_closed p_reports p_sent].
      rewrite <- A3, <- A4, <- A5, <- A6, <- A7, <- A8. reflexivity. }
    rewrite E1. clear E1.
    destruct (framed_run c rn mn (mkP PPolling RqNode [] false None false true (neighbours c rc) true false [] [RqExec; RqCirc; RqNode]) (FN eq_refl) (conj eq_refl (conj eq_refl (conj eq_refl eq_refl))) eq_refl) as (q3 & -> & B).
    clear q2 A1 A2 A3 A4 A5 A6 A7 A8. destruct B as (A1 & A2 & A3 & A4 & A5 & A6 & A7 & A8). cbn in A1, A2, A3, A4, A5, A6, A7, A8.
    unfold handler. rewrite <- A2. cbn [finished add_todo p_closed p_up p_sent p_reports p_todo]. rewrite <- A4, <- A5, <- A7, <- A8. cbn [app].
    split; [reflexivity |]. split; [reflexivity |]. split; [reflexivity |].
    exists (neighbours c rc ++ actives c rn). split; [reflexivity |]. intros x. rewrite in_app_iff, (nb_in c rc x), (act_in c rn x). tauto.
Qed.
Print Assumptions poll_full.

(** The same of a Phase II node: its two requests, the neighbours on its lines. *)
Theorem poll_full2 c re rl me ml : (forall r, c_fail c r = false) -> framed2 re me -> framed2 rl ml ->
  let p := prun c (IAccept true :: map IData (me ++ ml)) in
  p_closed p = true /\ p_up p = true /\ p_sent p = [RqP2Exec; RqP2Line] /\
  exists todo, p_reports p = [todo] /\ 
    forall x, In x todo <-> exists ci, In (RCirc ci (Some x)) rl /\ (c_full c = true \/ c_nowup c ci x = true).
Proof.
  intros NF FE FL. cbv zeta. unfold prun. cbn [fold_left].
  match goal with |- context[fold_left (pstep c) (map IData ?ms) ?q] => change (fold_left (pstep c) (map IData ms) q) with (feed c ms q) end.
  assert (E0 : pstep c poll0 (IAccept true) = mkP PPolling RqP2Exec [] false None true true [] true false [] [RqP2Exec]) by (unfold pstep, next_request; cbn; rewrite NF; reflexivity).
  rewrite E0, feed_app.
  destruct (framed2_run c re me (mkP PPolling RqP2Exec [] false None true true [] true false [] [RqP2Exec]) FE (conj eq_refl (conj eq_refl (conj eq_refl eq_refl))) eq_refl) as (q & -> & A).
  destruct A as (A1 & A2 & A3 & A4 & A5 & A6 & A7 & A8). cbn in A1, A2, A3, A4, A5, A6, A7, A8.
  assert (E1 : handler c re q = mkP PPolling RqP2Line [] false None true true [] true false [] [RqP2Exec; RqP2Line]).
  { unfold handler. rewrite <- A2. unfold next_request. rewrite NF, <- A3, <- A4, <- A5, <- A6, <- A7, <- A8. reflexivity. }
  rewrite E1. clear E1.
  destruct (framed2_run c rl ml (mkP PPolling RqP2Line [] false None true true [] true false [] [RqP2Exec; RqP2Line]) FL (conj eq_refl (conj eq_refl (conj eq_refl eq_refl))) eq_refl) as (q2 & -> & B).
  clear q A1 A2 A3 A4 A5 A6 A7 A8. destruct B as (A1 & A2 & A3 & A4 & A5 & A6 & A7 & A8). cbn in A1, A2, A3, A4, A5, A6, A7, A8.
  unfold handler. rewrite <- A2. cbn [finished add_todo p_closed p_up p_sent p_reports p_todo]. rewrite <- A4, <- A5, <- A7, <- A8. cbn [app].
  split; [reflexivity |]. split; [reflexivity |]. split; [reflexivity |].
  exists (neighbours c rl). split; [reflexivity |]. intros x. apply (nb_in c rl x).
Qed.
Print Assumptions poll_full2.

(** An error reply, or one that does not decode, ends the poll at once, whatever came
    before; so does a disconnect or a request that cannot be sent. *)
Theorem poll_error c l m : fair c poll0 l -> let p := prun c l in
  p_closed p = false -> p_state p = PPolling ->
  (p_phase2 p = false -> (exists k, g_code m = Some k /\ k < 0 /\ k <> -128) \/ ((exists k, g_code m = Some k /\ 0 <= k /\ k <> 2) /\ g_body m = None)) ->
  (p_phase2 p = true -> (p_count p = None -> exists k, g_code m = Some k /\ (k <> 1 \/ g_count m = None)) /\ (p_count p <> None -> g_body m = None)) ->
  let q := prun c (l ++ [IData m]) in
  p_closed q = true /\ p_reports q = [p_todo p] /\ p_sent q = p_sent p.
Proof.
  intros F. cbv zeta. intros C S A B. pose proof (run_inv c l poll0 inv0 F) as [I _]. fold (prun c l) in I. rewrite C in I. destruct I as [I _].
  assert (E : prun c (l ++ [IData m]) = finished (prun c l)).
  { unfold prun at 1. rewrite fold_left_app. cbn [fold_left]. fold (prun c l). set (p := prun c l) in *. clearbody p. unfold pstep. rewrite S. unfold data.
    destruct (p_phase2 p).
    - destruct (B eq_refl) as [B1 B2]. destruct (p_count p) as [n |].
      + rewrite (B2 ltac:(discriminate)). reflexivity.
      + destruct (B1 eq_refl) as (k & -> & [K | K]); [| rewrite K; destruct (negb (k =? 1)); reflexivity].
        destruct (Z.eqb_spec k 1); [congruence | reflexivity].
    - destruct (A eq_refl) as [(k & -> & K & N) | [(k & -> & K & N) ->]].
      + destruct (Z.eqb_spec k (-128)); [congruence |]. destruct (Z.ltb_spec k 0); [reflexivity | lia].
      + destruct (Z.eqb_spec k (-128)); [lia |]. destruct (Z.ltb_spec k 0); [lia |]. destruct (Z.eqb_spec k 2); [congruence | reflexivity]. }
  rewrite E. cbn [finished p_closed p_reports p_sent]. rewrite I. auto.
Qed.
Print Assumptions poll_error.

(** An empty message is an exception in the poller: nothing happens, the timer goes on. *)
Theorem poll_empty c l m : g_code m = None -> p_state (prun c l) = PPolling -> p_phase2 (prun c l) = false -> prun c (l ++ [IData m]) = prun c l.
Proof.
  intros G S P. unfold prun at 1. rewrite fold_left_app. cbn [fold_left]. fold (prun c l). unfold pstep. rewrite S. unfold data. rewrite P, G. reflexivity.
Qed.
Print Assumptions poll_empty.

(** * Concrete cases *)
Definition cfg0 : pcfg := mkCfg false true (fun _ _ => false) (fun _ => false).
Definition one (r : reply) : msg := mkMsg (Some 1) None (Some r).
Definition hd2 : msg := mkMsg (Some 2) None None.
Definition end128 : msg := mkMsg (Some (-128)) None None.
Example poll_ex : let l := IAccept false :: map IData ([one ROther] ++ [hd2; one (RCirc 1 (Some 1030)); one (RCirc 2 None); end128] ++ [hd2; one (RNode 1031 true); one (RNode 1032 false); end128]) in
  fair cfg0 poll0 l /\ p_reports (prun cfg0 l) = [[1030; 1031]] /\ framed [RCirc 1 (Some 1030); RCirc 2 None] [hd2; one (RCirc 1 (Some 1030)); one (RCirc 2 None); end128].
Proof.
  split; [cbn; repeat split |]. split; [reflexivity |].
  apply (fr_many hd2 end128 [one (RCirc 1 (Some 1030)); one (RCirc 2 None)]); [reflexivity | reflexivity |].
  repeat constructor; exists 1; cbn; repeat split; lia.
Qed.
Example poll_ex_timeout : let l := [IAccept false; IData (one ROther); ITimeout] in
  fair cfg0 poll0 l /\ p_reports (prun cfg0 l) = [[]] /\ p_sent (prun cfg0 l) = [RqExec; RqCirc] /\ p_up (prun cfg0 l) = true.
Proof. cbn. repeat split. Qed.
Example poll_ex_reject : let l := [IReject 39] in fair cfg0 poll0 l /\ p_up (prun cfg0 l) = false /\ p_reports (prun cfg0 l) = [[]].
Proof. cbn. repeat split. Qed.
Example poll_ex_phase2 : let l := IAccept true :: map IData [mkMsg (Some 1) (Some 1) None; one ROther; mkMsg (Some 1) (Some 2) None; one (RCirc 1 (Some 1030)); one (RCirc 2 (Some 5))] in
  fair cfg0 poll0 l /\ p_reports (prun cfg0 l) = [[1030; 5]].
Proof. cbn. repeat split. Qed.
