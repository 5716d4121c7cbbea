(** C63: what the network management listener answers. *)
From Verif Require Import Base NmlModel.

(** * Reading *)
(** How a client reads replies (network management specification: 2 starts a
    list that -128 ends, 3 says that the same entity goes on, 1 that it ends; a
    negative code alone is an error). *)
Fixpoint groups (cur : list (list Z)) (l : list nreply) : option (list (list (list Z))) :=
  match l with
  | [] => None
  | NCode c _ :: t => match cur, t with [], [] => if c =? -128 then Some [] else None | _, _ => None end
  | NItem c p :: t =>
    if c =? 3 then groups (cur ++ [p]) t
    else if c =? 1 then option_map (cons (cur ++ [p])) (groups [] t)
    else None
  | _ => None
  end.
Definition client (l : list nreply) : option (list (list (list Z)) + Z) :=
  match l with
  | [NItem c p] => if c =? 1 then Some (inl [[p]]) else None
  | [NCode c _] => if c <? 0 then Some (inr c) else None
  | NCode c _ :: t => if c =? 2 then option_map inl (groups [] t) else None
  | _ => None
  end.
(** What there is to show. *)
Definition records (e : entity) : list (list Z) := match e with EOne p => [p] | EMany l => l end.
Definition shown (l : list entity) : list (list (list Z)) := filter (fun r => match r with [] => false | _ => true end) (map records l).
Definition replies (o : list nout) : list nreply := flat_map (fun x => match x with Reply r => [r] | _ => [] end) o.
(** Answers of node.nice_read. *)
Definition answer_ok (a : answer) : Prop := match a with ACode c => -128 < c < 0 | ADict true l => l = [] | ADict false _ => True end.

Lemma groups_many : forall l cur t, l <> [] -> groups cur (map (NItem 3) (removelast l) ++ [NItem 1 (last l [])] ++ t) = option_map (cons (cur ++ l)) (groups [] t).
Proof.
  induction l as [|p l IH]; intros cur t N; [contradiction N; reflexivity|]. destruct l as [|q l]; [reflexivity|].
  change (removelast (p :: q :: l)) with (p :: removelast (q :: l)). change (last (p :: q :: l) []) with (last (q :: l) []). cbn [map app groups Z.eqb Pos.eqb]. 
  specialize (IH (cur ++ [p]) t). cbn [app] in IH. rewrite IH by discriminate. rewrite <- app_assoc. reflexivity.
Qed.
Lemma groups_all : forall l, groups [] (flat_map group l ++ [NCode (-128) 0]) = Some (shown l).
Proof.
  induction l as [|e l IH]; [reflexivity|]. cbn [flat_map]. rewrite <- app_assoc. destruct e as [p|[|p q]].
  - cbn [group app groups Z.eqb Pos.eqb]. rewrite IH. reflexivity.
  - cbn [group app]. exact IH.
  - change (group (EMany (p :: q))) with (map (NItem 3) (removelast (p :: q)) ++ [NItem 1 (last (p :: q) [])]). rewrite <- app_assoc. rewrite groups_many by discriminate. rewrite IH. reflexivity.
Qed.
Lemma map_replies : forall l, replies (map Reply l) = l.
Proof. induction l as [|r l IH]; [reflexivity|]. cbn [map replies flat_map app]. f_equal. exact IH. Qed.
Lemma client_many : forall t, t <> [] -> client (NCode 2 0 :: t) = option_map inl (groups [] t).
Proof. intros [|r t] N; [contradiction N; reflexivity|]. reflexivity. Qed.
Lemma end_nonempty : forall l, flat_map group l ++ [NCode (-128) 0] <> [].
Proof. intros l E. apply app_eq_nil in E. destruct E as [_ E]. discriminate E. Qed.

(** A read request on a Phase III or IV connection is answered with exactly the
    records there are, in order and grouped by entity; a request for one entity
    that is not there with "unrecognized component", and a request for the
    permanent data base with "unrecognized function". *)
Definition expected (permanent mult : bool) (a : answer) : list (list (list Z)) + Z :=
  if permanent then inr (-1)
  else match a with
       | ACode c => inr c
       | ADict true _ => if mult then inl [] else inr (-8)
       | ADict false l => inl (shown l)
       end.
Theorem nml_read : forall s permanent mult a, n_ph2 s = false -> answer_ok a ->
  exists o, nstep s (NReq (QRead permanent mult a)) = Ok (s, map Reply o) /\ client o = Some (expected permanent mult a).
Proof.
  intros s permanent mult a P A. cbn [nstep nml_request]. rewrite P. eexists. split; [reflexivity|]. unfold expected. destruct permanent; [reflexivity|].
  destruct a as [c|[|] l]; cbn [answer_ok] in A.
  - unfold read_reply. destruct c as [|c|c]; try lia. cbn [client]. replace (Z.neg c <? 0) with true by lia. reflexivity.
  - subst l. destruct mult; reflexivity.
  - unfold read_reply. destruct l as [|e l]; [reflexivity|]. destruct l as [|e2 l].
    + destruct e as [p|[|p [|q r]]]; try reflexivity.
      rewrite client_many by apply end_nonempty. rewrite groups_all. reflexivity.
    + destruct e as [p|[|p [|q r]]]; rewrite client_many by apply end_nonempty; rewrite groups_all; reflexivity.
Qed.
Print Assumptions nml_read.

(** A Phase II client gets the number of records and then that many. *)
Theorem nml_read_phase2 : forall s l, n_ph2 s = true -> l <> [] ->
  nstep s (NReq (QP2Read (ADict false (map EOne l)))) = Ok (s, map Reply (NP2Head (zlen l) :: map NP2Item l)).
Proof.
  intros s l P N. cbn [nstep nml_request]. rewrite P. cbn [negb p2_reply bind]. unfold zlen. rewrite map_length, map_map. reflexivity.
Qed.
Print Assumptions nml_read_phase2.
(** But when there is nothing to show the listener fails, and with it the
    connection. *)
Theorem nml_phase2_refuted : forall s l, n_ph2 s = true -> nstep s (NReq (QP2Read (ADict true l))) = Err EAttr.
Proof. intros s l P. cbn [nstep nml_request]. rewrite P. reflexivity. Qed.
Print Assumptions nml_phase2_refuted.

(** Everything that is not a supported request of the protocol version in use
    gets one reply, a negative code, and changes nothing. *)
Definition unsupported (ph2 : bool) (q : request) : bool :=
  match q with
  | QBad | QZero | QOther => true
  | QRead _ _ _ | QLoopNode _ _ | QLoopCirc _ _ _ => ph2
  | QLoopOther => true
  | QP2Read _ => negb ph2
  | QExc _ => false
  end.
Theorem nml_unsupported : forall s q, unsupported (n_ph2 s) q = true ->
  nstep s (NReq q) = Ok (s, [Reply (match q with
    | QZero => NCode (-3) 0                     (* privilege violation *)
    | QRead _ _ _ => NCode (-1) 65535           (* unrecognized function *)
    | QP2Read _ => NP2Code (-1)
    | QLoopOther => if n_ph2 s then NCode (-1) 0 else NLoopErr (-1) 0 0
    | _ => NCode (-1) 0
    end)]).
Proof.
  intros s q U. cbn [nstep]. destruct q; cbn [unsupported nml_request] in *; try discriminate U; destruct (n_ph2 s); cbn [negb] in *; try discriminate U; reflexivity.
Qed.
Print Assumptions nml_unsupported.

(** A client that names a version in its connect message gets the replies of
    Phase III and IV, one that does not those of Phase II. *)
Theorem nml_version : forall v a l, answer_ok a -> l <> [] ->
  (v <> [] -> exists o, nstep (nml_init v) (NReq (QRead false true a)) = Ok (nml_init v, map Reply o) /\ client o = Some (expected false true a)) /\
  nstep (nml_init []) (NReq (QP2Read (ADict false (map EOne l)))) = Ok (nml_init [], map Reply (NP2Head (zlen l) :: map NP2Item l)).
Proof.
  intros v a l A N. split; [|apply nml_read_phase2; [reflexivity|exact N]]. intros V. apply nml_read; [destruct v; [contradiction|reflexivity]|exact A].
Qed.
Print Assumptions nml_version.

(** A local NCP gets exactly one message for a read request, with all the
    records or the error. *)
Lemma collect_items : forall l acc, (forall r, In r l -> rc_of r <> 2 /\ rc_of r <> -128) ->
  api_collect {| p_mult := true; p_replies := acc |} (l ++ [NCode (-128) 0]) = [acc ++ l].
Proof.
  induction l as [|r l IH]; intros acc H; [rewrite app_nil_r; reflexivity|]. cbn [app api_collect]. unfold api_reply. cbn [p_mult p_replies]. destruct (H r (or_introl eq_refl)) as [H1 H2].
  replace (rc_of r =? 2) with false by lia. replace (rc_of r =? -128) with false by lia. cbn [negb app]. rewrite IH by (intros x X; apply H; right; exact X). rewrite <- app_assoc. reflexivity.
Qed.
Lemma group_rc : forall l r, In r (flat_map group l) -> rc_of r <> 2 /\ rc_of r <> -128.
Proof.
  intros l r H. apply in_flat_map in H. destruct H as (e & _ & H). destruct e as [p|[|p q]]; cbn [group] in H.
  - destruct H as [<-|[]]. split; cbn [rc_of]; lia.
  - contradiction H.
  - apply in_app_iff in H. destruct H as [H|[<-|[]]]; [|split; cbn [rc_of]; lia]. apply in_map_iff in H. destruct H as (x & <- & _). split; cbn [rc_of]; lia.
Qed.
Definition contents (r : nreply) : list (list Z) := match r with NItem _ p => [p] | _ => [] end.
Theorem nml_api_read : forall mult a, answer_ok a ->
  exists o, api_collect api0 (read_reply mult a) = [o] /\
    match expected false mult a with
    | inl l => flat_map contents o = concat l /\ Forall (fun r => rc_of r = 1 \/ rc_of r = 3) o
    | inr c => o = [NCode c 0xffff]
    end.
Proof.
  intros mult a A. assert (M : forall l, exists o, api_collect api0 (NCode 2 0 :: flat_map group l ++ [NCode (-128) 0]) = [o] /\ flat_map contents o = concat (shown l) /\ Forall (fun r => rc_of r = 1 \/ rc_of r = 3) o).
  { intros l. exists (flat_map group l). split; [|split].
    - change (api_collect api0 (NCode 2 0 :: flat_map group l ++ [NCode (-128) 0])) with (api_collect {| p_mult := true; p_replies := [] |} (flat_map group l ++ [NCode (-128) 0])). rewrite collect_items by (apply group_rc). reflexivity.
    - induction l as [|e l IH]; [reflexivity|]. cbn [flat_map]. rewrite flat_map_app, IH. destruct e as [p|[|p q]]; [reflexivity|reflexivity|].
      change (group (EMany (p :: q))) with (map (NItem 3) (removelast (p :: q)) ++ [NItem 1 (last (p :: q) [])]). rewrite flat_map_app. assert (X : flat_map contents (map (NItem 3) (removelast (p :: q))) = removelast (p :: q)) by (induction (removelast (p :: q)) as [|x t IT]; [reflexivity|cbn [map flat_map contents app]; f_equal; exact IT]).
      rewrite X. cbn [flat_map contents app]. rewrite <- app_removelast_last by discriminate. reflexivity.
    - apply Forall_forall. intros r H. apply in_flat_map in H. destruct H as (e & _ & H). destruct e as [p|[|p q]]; cbn [group] in H.
      + destruct H as [<-|[]]. left. reflexivity.
      + contradiction H.
      + apply in_app_iff in H. destruct H as [H|[<-|[]]]; [|left; reflexivity]. apply in_map_iff in H. destruct H as (x & <- & _). right. reflexivity. }
  destruct a as [c|[|] l]; cbn [answer_ok expected] in *.
  - unfold read_reply. destruct c as [|c|c]; try lia. unfold api_collect, api_reply. cbn [rc_of api0 p_mult p_replies app]. destruct (Z.neg c =? 2) eqn:Q; [lia|]. destruct (Z.neg c =? -128) eqn:Q2; cbn [negb].
    + lia.
    + eexists. split; reflexivity.
  - subst l. destruct mult; [exact (M [])|]. eexists. split; reflexivity.
  - unfold read_reply. destruct l as [|e [|e2 l]]; [exact (M [])| |].
    + destruct e as [p|[|p [|q r]]]; try (apply (M [EMany []]); fail); try (apply (M [EMany (p :: q :: r)]); fail); eexists; (split; [reflexivity|]); (split; [reflexivity|]); repeat constructor.
    + destruct e as [p|[|p [|q r]]]; [exact (M (EOne p :: e2 :: l))|exact (M (EMany [] :: e2 :: l))|exact (M (EMany [p] :: e2 :: l))|exact (M (EMany (p :: q :: r) :: e2 :: l))].
Qed.
Print Assumptions nml_api_read.


(** * Loop node *)
Definition valid (a : loopargs) : Prop := 0 <= dflt (a_with a) 2 <= 2 /\ 1 <= dflt (a_len a) 128 <= 65535 /\ 1 <= dflt (a_count a) 1.
Definition pattern (a : loopargs) : list Z :=
  repeat (match a_with a with Some 0 => 0 | Some 1 => 255 | _ => 0x55 end) (Z.to_nat (dflt (a_len a) 128)).
(** A request with bad arguments is refused, and the reply names one that is
    bad; a good one leads to a connection, or is refused because the node is not
    known. *)
Theorem nml_loop_refused : forall s known a, n_ph2 s = false -> ~ valid a ->
  exists s2 d, nstep s (NReq (QLoopNode known a)) = Ok (s2, [Reply (NLoopErr (-16) d (dflt (a_count a) 1))]) /\ n_loop s2 = n_loop s /\
    ((d = 150 /\ dflt (a_count a) 1 < 1) \/ (d = 151 /\ ~ 1 <= dflt (a_len a) 128 <= 65535) \/ (d = 152 /\ ~ 0 <= dflt (a_with a) 2 <= 2)).
Proof.
  intros s known a P V. cbn [nstep nml_request]. rewrite P. unfold loop_node, badarg. unfold valid in V.
  destruct (dflt (a_count a) 1 <? 1) eqn:C; [eexists _, _; split; [reflexivity|]; split; [reflexivity|]; lia|].
  destruct ((dflt (a_len a) 128 <? 1) || (65535 <? dflt (a_len a) 128)) eqn:D; [eexists _, _; split; [reflexivity|]; split; [reflexivity|]; lia|].
  destruct ((0 <=? dflt (a_with a) 2) && (dflt (a_with a) 2 <=? 2)) eqn:E; [exfalso; lia|]. eexists _, _. split; [reflexivity|]. split; [reflexivity|]. lia.
Qed.
Print Assumptions nml_loop_refused.

(** The state while count messages are still to be echoed on connection k. *)
Definition looping (s : nml) (k : Z) (data : list Z) (count : Z) : Prop := n_loop s = Some k /\ n_data s = data /\ n_count s = count /\ n_ph2 s = false.
Theorem nml_loop_start : forall s (known : bool) a, n_ph2 s = false -> valid a ->
  if known then exists s2, nstep s (NReq (QLoopNode known a)) = Ok (s2, [Connect (n_next s)]) /\ looping s2 (n_next s) (pattern a) (dflt (a_count a) 1) /\ n_next s2 = n_next s + 1
  else exists s2, nstep s (NReq (QLoopNode known a)) = Ok (s2, [Reply (NLoopErr (-21) 2 (dflt (a_count a) 1))]) /\ n_loop s2 = n_loop s.
Proof.
  intros s known a P (V1 & V2 & V3). cbn [nstep nml_request]. rewrite P. unfold loop_node, badarg.
  replace (dflt (a_count a) 1 <? 1) with false by lia. replace ((dflt (a_len a) 128 <? 1) || (65535 <? dflt (a_len a) 128)) with false by lia. replace ((0 <=? dflt (a_with a) 2) && (dflt (a_with a) 2 <=? 2)) with true by lia.
  cbn [n_ph2 n_loop n_next n_count n_data set_count]. destruct known; eexists; (split; [reflexivity|]); [|reflexivity]. unfold looping. cbn [n_ph2 n_loop n_next n_count n_data]. repeat split; try exact P. unfold pattern. f_equal.
  unfold fill, dflt in *. destruct (a_with a) as [w|]; [|reflexivity]. assert (X : w = 0 \/ w = 1 \/ w = 2) by lia. destruct X as [-> |[-> | -> ]]; reflexivity.
Qed.
Print Assumptions nml_loop_start.

(** What can happen on connection k, and when it is what a mirror does. *)
Definition on (k : Z) (e : nev) : Prop :=
  match e with NData c m _ => c = k /\ m <> [] | NAccept c _ | NReject c _ | NClosed c => c = k | _ => False end.
Definition room (m : list Z) : Z := match m with [] => 0 | [a] => a | a :: b :: _ => a + 256 * b end.
Definition echo (data : list Z) (e : nev) : bool := match e with NData _ m _ => leqb m (1 :: data) | _ => false end.
Definition good (data : list Z) (e : nev) : bool := match e with NAccept _ m => zlen data <? room m | _ => echo data e end.
Definition echoes (data : list Z) (h : list nev) : Z := zlen (filter (echo data) h).
Definition quiet (k : Z) (e : nev) : Prop := match e with NAccept c _ | NReject c _ | NClosed c => True | _ => False end.
Lemma echoes_cons : forall data e h, echoes data (e :: h) = (if echo data e then 1 else 0) + echoes data h.
Proof. intros. unfold echoes. cbn [filter]. destruct (echo data e); unfold zlen; cbn [length]; lia. Qed.
Lemma echoes_nn : forall data h, 0 <= echoes data h.
Proof. intros. unfold echoes, zlen. lia. Qed.
Lemma leqb_cons : forall a x b y, leqb (a :: x) (b :: y) = (a =? b) && leqb x y.
Proof.
  intros. destruct (leqb (a :: x) (b :: y)) eqn:E.
  - apply leqb_eq in E. injection E as -> -> . rewrite Z.eqb_refl. symmetry. apply leqb_eq. reflexivity.
  - destruct ((a =? b) && leqb x y) eqn:F; [|reflexivity]. apply andb_true_iff in F. destruct F as [F1 F2]. apply leqb_eq in F2. apply Z.eqb_eq in F1. subst. replace (leqb (b :: y) (b :: y)) with true in E; [discriminate E|]. symmetry. apply leqb_eq. reflexivity.
Qed.
Lemma good_step : forall s k data count e, looping s k data count -> on k e -> good data e = true -> (if echo data e then 1 else 0) < count ->
  exists s2, nstep s e = Ok (s2, [Send k (0 :: data)]) /\ looping s2 k data (count - (if echo data e then 1 else 0)).
Proof.
  intros s k data count e (L1 & L2 & L3 & L4) O G C. unfold nstep. destruct e as [q|c m q|c m|c r|c|r]; cbn [on good echo] in *; try contradiction; try discriminate G.
  - destruct O as [-> M]. unfold is_loop. rewrite L1, Z.eqb_refl. destruct m as [|f d]; [contradiction M; reflexivity|]. rewrite G in C |- *. rewrite leqb_cons in G. rewrite L2, G. cbn zeta. cbn [set_count n_count n_data]. rewrite L3. replace (count - 1 <? 1) with false by lia. eexists. rewrite L2. split; [reflexivity|]. unfold looping. cbn [set_count n_loop n_data n_count n_ph2]. auto.
  - subst c. unfold is_loop. rewrite L1, Z.eqb_refl. cbn zeta. rewrite L2. fold (room m). replace (room m <? zlen data + 1) with false by lia. eexists. split; [reflexivity|]. rewrite Z.sub_0_r. unfold looping. auto.
Qed.
Lemma run_app : forall a b s s1 o1, nrun s a = Ok (s1, o1) -> nrun s (a ++ b) = (let* (s2, o2) := nrun s1 b in Ok (s2, o1 ++ o2)).
Proof.
  induction a as [|e a IH]; intros b s s1 o1 E; cbn [nrun app] in *.
  - injection E as <- <- . destruct (nrun s b) as [[]|]; reflexivity.
  - destruct (nstep s e) as [[sx ox]|]; cbn [bind] in *; [|discriminate E]. destruct (nrun sx a) as [[sy oy]|] eqn:R; cbn [bind] in E; [|discriminate E]. injection E as <- <- .
    rewrite (IH b _ _ _ R). destruct (nrun sy b) as [[sz oz]|]; cbn [bind]; [|reflexivity]. rewrite app_assoc. reflexivity.
Qed.
(** As long as the mirror does its part and messages are left, each time one
    more message is sent, and there is no reply. *)
Theorem nml_loop_pending : forall h s k data count, looping s k data count -> Forall (on k) h -> forallb (good data) h = true -> echoes data h < count ->
  exists s2, nrun s h = Ok (s2, map (fun _ => Send k (0 :: data)) h) /\ looping s2 k data (count - echoes data h).
Proof.
  induction h as [|e h IH]; intros s k data count L O G C; cbn [nrun map].
  - exists s. split; [reflexivity|]. unfold echoes. cbn [filter zlen length]. rewrite Z.sub_0_r. exact L.
  - cbn [forallb] in G. apply andb_true_iff in G. destruct G as [G1 G2]. rewrite echoes_cons in *. pose proof (echoes_nn data h).
    destruct (good_step s k data count e L (Forall_inv O) G1 ltac:(lia)) as (s1 & E1 & L1). rewrite E1. cbn [bind].
    destruct (IH s1 k data _ L1 (Forall_inv_tail O) G2 ltac:(lia)) as (s2 & E2 & L2). rewrite E2. cbn [bind]. exists s2. split; [reflexivity|].
    replace (count - ((if echo data e then 1 else 0) + echoes data h)) with (count - (if echo data e then 1 else 0) - echoes data h) by lia. exact L2.
Qed.
Print Assumptions nml_loop_pending.
Lemma quiet_run : forall b s k, n_loop s = None -> Forall (quiet k) b -> nrun s b = Ok (s, []).
Proof.
  induction b as [|e b IH]; intros s k N Q; cbn [nrun]; [reflexivity|]. pose proof (Forall_inv Q) as Q1. destruct e; cbn [quiet] in Q1; try contradiction; unfold nstep, is_loop; rewrite N; cbn [bind]; rewrite (IH s k N (Forall_inv_tail Q)); reflexivity.
Qed.
(** Success is reported exactly when the last of the messages has come back
    unchanged, once, and the connection is closed. *)
Theorem nml_loop_success : forall a e b s k data count, looping s k data count -> Forall (on k) (a ++ [e]) -> forallb (good data) a = true -> echo data e = true -> echoes data a = count - 1 -> Forall (quiet k) b ->
  exists s2, nrun s (a ++ e :: b) = Ok (s2, map (fun _ => Send k (0 :: data)) a ++ [Disconnect k; Reply (NLoopOk None)]) /\ n_loop s2 = None.
Proof.
  intros a e b s k data count L O G E N Q. apply Forall_app in O. destruct O as [Oa Oe]. apply Forall_inv in Oe.
  destruct (nml_loop_pending a s k data count L Oa G ltac:(lia)) as (s1 & E1 & L1 & L2 & L3 & L4). rewrite (run_app _ _ _ _ _ E1). cbn [nrun].
  destruct e as [q|c m q|c m|c r|c|r]; cbn [on echo] in *; try contradiction; try discriminate E. destruct Oe as [-> M]. unfold nstep, is_loop. rewrite L1, Z.eqb_refl. destruct m as [|f d]; [contradiction M; reflexivity|]. rewrite leqb_cons in E. rewrite L2, E. cbn zeta. cbn [set_count n_count]. rewrite L3. replace (count - echoes data a - 1 <? 1) with true by lia. cbn [bind].
  rewrite (quiet_run b _ k); [|reflexivity|exact Q]. cbn [bind]. rewrite app_nil_r. eexists. split; reflexivity.
Qed.
Print Assumptions nml_loop_success.
(** Anything else ends the loop with an error that says how many messages did
    not come back. *)
Fixpoint detail (r : Z) (t : list (Z * Z)) : Z := match t with [] => 0 | (x, d) :: u => if r =? x then d else detail r u end.
Definition fault (data : list Z) (e : nev) : Z * Z :=
  match e with
  | NAccept _ _ => (-16, 151)
  | NReject _ r => (-21, detail r [(0, 5); (4, 7); (5, 6); (34, 8); (36, 8); (43, 8); (38, 12); (39, 3)])
  | NData _ _ _ => (-28, 0)
  | _ => (-19, 0)
  end.
Theorem nml_loop_failure : forall a e b s k data count, looping s k data count -> Forall (on k) (a ++ [e]) -> forallb (good data) a = true -> good data e = false -> echoes data a < count -> Forall (quiet k) b ->
  exists s2, nrun s (a ++ e :: b) = Ok (s2, map (fun _ => Send k (0 :: data)) a ++ (match e with NReject _ _ => [] | _ => [Abort k] end) ++ [Reply (NLoopErr (fst (fault data e)) (snd (fault data e)) (count - echoes data a))]) /\ n_loop s2 = None.
Proof.
  intros a e b s k data count L O G E N Q. apply Forall_app in O. destruct O as [Oa Oe]. apply Forall_inv in Oe.
  destruct (nml_loop_pending a s k data count L Oa G N) as (s1 & E1 & L1 & L2 & L3 & L4). rewrite (run_app _ _ _ _ _ E1). cbn [nrun].
  destruct e as [q|c m q|c m|c r|c|r]; cbn [on good echo] in *; try contradiction; unfold nstep, is_loop.
  - destruct Oe as [-> M]. rewrite L1, Z.eqb_refl. destruct m as [|f d]; [contradiction M; reflexivity|]. rewrite leqb_cons in E. rewrite L2, E. cbn [bind]. rewrite (quiet_run b _ k); [|reflexivity|exact Q]. cbn [bind]. rewrite app_nil_r, L3. eexists. split; reflexivity.
  - subst c. rewrite L1, Z.eqb_refl. cbn zeta. rewrite L2. fold (room m). replace (room m <? zlen data + 1) with true by lia. cbn [bind]. rewrite (quiet_run b _ k); [|reflexivity|exact Q]. cbn [bind]. rewrite app_nil_r, L3. eexists. split; reflexivity.
  - subst c. rewrite L1, Z.eqb_refl. cbn [bind]. rewrite (quiet_run b _ k); [|reflexivity|exact Q]. cbn [bind]. rewrite app_nil_r, L3. cbn [fault fst snd app].
    replace (detail r _) with (mirror_detail r) by (unfold mirror_detail; cbn [detail]; destruct (r =? 0), (r =? 4), (r =? 5), (r =? 34), (r =? 36), (r =? 43), (r =? 38); reflexivity). eexists. split; reflexivity.
  - subst c. rewrite L1, Z.eqb_refl. cbn [bind]. rewrite (quiet_run b _ k); [|reflexivity|exact Q]. cbn [bind]. rewrite app_nil_r, L3. eexists. split; reflexivity.
Qed.
Print Assumptions nml_loop_failure.
(** These are all the cases. *)
Theorem nml_loop_cases : forall data h count, 1 <= count ->
  (forallb (good data) h = true /\ echoes data h < count) \/
  (exists a e b, h = a ++ e :: b /\ forallb (good data) a = true /\
     ((echo data e = true /\ echoes data a = count - 1) \/ (good data e = false /\ echoes data a < count))).
Proof.
  intros data. induction h as [|e h IH]; intros count C; [left; split; [reflexivity|unfold echoes; cbn [filter zlen length]; unfold zlen; cbn [length]; lia]|].
  destruct (good data e) eqn:G.
  - destruct (echo data e) eqn:E.
    + destruct (Z.eq_dec count 1) as [-> |N].
      * right. exists [], e, h. split; [reflexivity|]. split; [reflexivity|]. left. split; [exact E|reflexivity].
      * destruct (IH (count - 1) ltac:(lia)) as [[H1 H2]|(a & x & b & -> & H2 & H3)].
        { left. cbn [forallb]. rewrite G, echoes_cons, E. split; [exact H1|lia]. }
        { right. exists (e :: a), x, b. cbn [forallb]. rewrite G, echoes_cons, E. split; [reflexivity|]. split; [exact H2|]. destruct H3 as [[H3 H4]|[H3 H4]]; [left|right]; (split; [exact H3|lia]). }
    + destruct (IH count C) as [[H1 H2]|(a & x & b & -> & H2 & H3)].
      { left. cbn [forallb]. rewrite G, echoes_cons, E. split; [exact H1|lia]. }
      { right. exists (e :: a), x, b. cbn [forallb]. rewrite G, echoes_cons, E. split; [reflexivity|]. split; [exact H2|]. destruct H3 as [[H3 H4]|[H3 H4]]; [left|right]; (split; [exact H3|lia]). }
  - right. exists [], e, h. split; [reflexivity|]. split; [reflexivity|]. right. split; [exact G|]. unfold echoes. cbn [filter zlen length]. unfold zlen. cbn [length]. lia.
Qed.
Print Assumptions nml_loop_cases.

(** * The mirror *)
(** The mirror returns data unchanged, whatever it is, and refuses any other
    function; a message without function byte makes it fail. *)
Theorem mirror_echo : forall f d, mirror_data (f :: d) = Ok (if f =? 0 then 1 :: d else [255]).
Proof. intros f d. cbn [mirror_data]. destruct (f =? 0); reflexivity. Qed.
Print Assumptions mirror_echo.
Theorem mirror_empty_refuted : mirror_data [] = Err EIndex.
Proof. reflexivity. Qed.
Print Assumptions mirror_empty_refuted.
(** A loop against this mirror succeeds after exactly the requested number of
    messages of the requested length, for every valid request up to length
    65534; 65535 is accepted by the listener but refused by it after the connect,
    since the mirror's limit includes the function byte. *)
Theorem nml_mirror : forall s a, n_ph2 s = false -> valid a ->
  let k := n_next s in
  let count := Z.to_nat (dflt (a_count a) 1) in
  if dflt (a_len a) 128 <? 65535 then
    exists reply, mirror_data (0 :: pattern a) = Ok reply /\ forall qs, length qs = count ->
      exists s2, nrun s (NReq (QLoopNode true a) :: NAccept k mirror_accept :: map (NData k reply) qs) =
                 Ok (s2, Connect k :: repeat (Send k (0 :: pattern a)) count ++ [Disconnect k; Reply (NLoopOk None)])
  else exists s2, nrun s [NReq (QLoopNode true a); NAccept k mirror_accept] = Ok (s2, [Connect k; Abort k; Reply (NLoopErr (-16) 151 (dflt (a_count a) 1))]).
Proof.
  intros s a P V k count. destruct (nml_loop_start s true a P V) as (s1 & E1 & L1 & _). fold k in E1, L1. pose proof V as (V1 & V2 & V3).
  assert (LP : zlen (pattern a) = dflt (a_len a) 128) by (unfold pattern, zlen; rewrite repeat_length; lia).
  destruct (dflt (a_len a) 128 <? 65535) eqn:Q.
  - eexists. split; [apply mirror_echo|]. cbn [Z.eqb]. intros qs LQ. cbn [nrun]. rewrite E1. cbn [bind].
    assert (EC : echo (pattern a) (NData k (1 :: pattern a) QBad) = true) by (cbn [echo]; apply leqb_eq; reflexivity).
    destruct qs as [|q qs] using rev_ind; [cbn [length] in LQ; unfold count in LQ; lia|]. rewrite app_length in LQ. cbn [length] in LQ. rewrite map_app. cbn [map].
    assert (GD : forall l, forallb (good (pattern a)) (map (NData k (1 :: pattern a)) l) = true) by (induction l as [|x l IL]; [reflexivity|]; cbn [map forallb good]; rewrite IL; cbn [echo] in *; rewrite EC; reflexivity).
    assert (EN : forall l, echoes (pattern a) (map (NData k (1 :: pattern a)) l) = zlen l) by (induction l as [|x l IL]; [reflexivity|]; cbn [map]; rewrite echoes_cons, IL; cbn [echo] in *; rewrite EC; unfold zlen; cbn [length]; lia).
    destruct (nml_loop_success (NAccept k mirror_accept :: map (NData k (1 :: pattern a)) qs) (NData k (1 :: pattern a) q) [] s1 k (pattern a) (dflt (a_count a) 1) L1) as (s2 & E2 & _).
    + apply Forall_app. split; [|constructor; [|constructor]; cbn [on]; split; [reflexivity|discriminate]]. constructor; [reflexivity|]. apply Forall_forall. intros x X. apply in_map_iff in X. destruct X as (y & <- & _). cbn [on]. split; [reflexivity|discriminate].
    + cbn [forallb good mirror_accept room]. rewrite GD. rewrite andb_true_r. rewrite LP. lia.
    + exact EC.
    + rewrite echoes_cons, EN. cbn [echo]. unfold zlen. unfold count in LQ. lia.
    + constructor.
    + cbn [app nrun] in E2. cbn [nrun]. rewrite E2. cbn [bind]. eexists. cbn [map app]. f_equal. f_equal. f_equal. rewrite map_map.
      assert (RP : forall (l : list request), map (fun _ => Send k (0 :: pattern a)) l = repeat (Send k (0 :: pattern a)) (length l)) by (induction l as [|x l IL]; [reflexivity|cbn [map length repeat]; f_equal; exact IL]).
      rewrite RP. replace count with (S (length qs)) by lia. reflexivity.
  - cbn [nrun]. rewrite E1. cbn [bind].
    destruct (nml_loop_failure [] (NAccept k mirror_accept) [] s1 k (pattern a) (dflt (a_count a) 1) L1) as (s2 & E2 & _).
    + constructor; [reflexivity|constructor].
    + reflexivity.
    + cbn [good mirror_accept room]. rewrite LP. lia.
    + unfold echoes, zlen. cbn [filter length]. lia.
    + constructor.
    + cbn [app nrun map fault fst snd bind] in E2. rewrite E2. cbn [bind]. eexists. unfold echoes, zlen. cbn [filter length app Z.of_nat]. rewrite Z.sub_0_r. reflexivity.
Qed.
Print Assumptions nml_mirror.

(** An empty data message from the mirror is not taken for an error of the
    mirror's: it is an IndexError. *)
Theorem nml_empty_refuted : forall s k data count q, looping s k data count -> nstep s (NData k [] q) = Err EIndex.
Proof. intros s k data count q (L & _). unfold nstep, is_loop. rewrite L, Z.eqb_refl. reflexivity. Qed.
Print Assumptions nml_empty_refuted.

(** * Two loops at once *)
(** A second loop request before the first is answered takes its place: nothing
    that happens on the first connection is answered any more, its data is taken
    for requests, and the first request never gets a reply. *)
Theorem nml_overlap_refuted : forall s a b h, n_ph2 s = false -> n_loop s = None -> valid a -> valid b -> Forall (quiet (n_next s)) h -> Forall (fun e => on (n_next s) e) h ->
  exists s2, nrun s (NReq (QLoopNode true a) :: NReq (QLoopNode true b) :: h) = Ok (s2, [Connect (n_next s); Connect (n_next s + 1)]) /\
    forall m q, nstep s2 (NData (n_next s) m q) = nml_request s2 q.
Proof.
  intros s a b h P N V W Q O. destruct (nml_loop_start s true a P V) as (s1 & E1 & (A1 & A2 & A3 & A4) & A5). destruct (nml_loop_start s1 true b A4 W) as (s2 & E2 & (B1 & B2 & B3 & B4) & B5). cbn [nrun]. rewrite E1. cbn [bind]. rewrite E2. cbn [bind]. rewrite A5 in *.
  assert (NL : is_loop s2 (n_next s) = false) by (unfold is_loop; rewrite B1; lia).
  assert (R : nrun s2 h = Ok (s2, [])). { clear E1 E2 B1 B2 B3 B4 B5. induction h as [|e h IH]; [reflexivity|]. cbn [nrun]. pose proof (Forall_inv Q) as Q1. pose proof (Forall_inv O) as O1. destruct e; cbn [quiet on] in Q1, O1; try contradiction; subst conn; unfold nstep; rewrite NL; cbn [bind]; rewrite (IH (Forall_inv_tail Q) (Forall_inv_tail O)); reflexivity. }
  rewrite R. cbn [bind app]. eexists. split; [reflexivity|]. intros m q. unfold nstep. rewrite NL. reflexivity.
Qed.
Print Assumptions nml_overlap_refuted.

(** * Circuit loops *)
(** The stations a circuit loop visits: the assistant before, after, or before
    and after the destination. *)
Definition path (to helper : option (list Z)) (assist : option Z) : option (list (list Z)) :=
  match assist, to, helper with
  | None, None, _ => Some []
  | None, Some t, _ => Some [t]
  | Some 0, Some t, Some h => Some [h; t]
  | Some 1, Some t, Some h => Some [t; h]
  | Some 2, Some t, Some h => Some [h; t; h]
  | _, _, _ => None
  end.
Definition addr (pa : option (list Z)) (nd : option (option (list Z))) : option (list Z) := match pa, nd with Some m, _ => Some m | None, Some (Some m) => Some m | _, _ => None end.
Definition named (nd : option (option (list Z))) (pa : option (list Z)) : Prop := pa = None -> nd <> Some None.
(** With node names that are known, a circuit loop request either makes MOP loop
    over exactly that path, or is refused with "invalid parameter value". *)
Theorem nml_loop_path : forall s a ret, n_ph2 s = false -> named (c_node a) (c_pa a) -> (c_help a <> None -> named (c_anode a) (c_apa a)) -> match c_help a with Some v => 0 <= v | None => True end ->
  let w := dflt (a_with (c_base a)) 2 in let l := dflt (a_len (c_base a)) 128 in let c := dflt (a_count (c_base a)) 1 in
  exists s2 o, nstep s (NReq (QLoopCirc true a ret)) = Ok (s2, o) /\ n_loop s2 = n_loop s /\
    match path (addr (c_pa a) (c_node a)) (addr (c_apa a) (c_anode a)) (c_help a) with
    | Some p =>
      if (0 <=? w) && (w <=? 2) && (1 <=? l) && (l <=? 1490) && (1 <=? c) && negb (match c_help a, c_apa a with Some _, Some m => multi m | _, _ => false end)
      then exists t, o = MopLoop p c (pattern (c_base a)) :: t /\ replies t = match ret with MStarted => [] | MTooLong m => [NLoopErr (-16) 151 m] | MFailed => [NLoopErr (-25) 0 c] end
      else exists d, o = [Reply (NLoopErr (-16) d c)]
    | None => exists d, o = [Reply (NLoopErr (-16) d c)]
    end.
Proof.
  intros s a ret P N1 N2 HP w l c. cbn [nstep nml_request]. rewrite P. unfold loop_circuit. cbn [negb]. fold w l c.
  assert (R1 : resolve (c_pa a) (c_node a) = Ok (addr (c_pa a) (c_node a))). { unfold resolve, addr, named in *. destruct (c_pa a); [reflexivity|]. destruct (c_node a) as [[m|]|]; try reflexivity. contradiction (N1 eq_refl). reflexivity. }
  rewrite R1. cbn [bind]. clear N1 R1. set (to := addr (c_pa a) (c_node a)).
  assert (BA : forall b, (0 <=? w) && (w <=? 2) && (1 <=? l) && (l <=? 1490) && (1 <=? c) = true -> badarg b w l 1490 c = b) by (intros b B; unfold badarg; replace ((0 <=? w) && (w <=? 2)) with true by lia; replace ((l <? 1) || (1490 <? l)) with false by lia; replace (c <? 1) with false by lia; reflexivity).
  assert (BB : forall b, (0 <=? w) && (w <=? 2) && (1 <=? l) && (l <=? 1490) && (1 <=? c) = false -> exists d, badarg b w l 1490 c = Some d).
  { intros b B. unfold badarg. destruct (c <? 1) eqn:C1; [eauto|]. destruct ((l <? 1) || (1490 <? l)) eqn:C2; [eauto|]. destruct ((0 <=? w) && (w <=? 2)) eqn:C3; [|eauto]. exfalso. lia. }
  assert (BC : forall d, exists d2, badarg (Some d) w l 1490 c = Some d2). { intros d. unfold badarg. destruct ((0 <=? w) && (w <=? 2)), ((l <? 1) || (1490 <? l)), (c <? 1); eauto. }
  assert (SL : n_loop (set_count s c) = n_loop s) by reflexivity.
  assert (PT : (0 <=? w) && (w <=? 2) && (1 <=? l) && (l <=? 1490) && (1 <=? c) = true -> repeat (fill w) (Z.to_nat l) = pattern (c_base a)).
  { intros B. unfold pattern. fold l. f_equal. unfold w, dflt in *. destruct (a_with (c_base a)) as [x|]; [|reflexivity]. assert (X : x = 0 \/ x = 1 \/ x = 2) by lia. destruct X as [-> |[-> | -> ]]; reflexivity. }
  destruct (c_help a) as [v|] eqn:HV; cbn [dflt].
  2:{ replace (-1 =? -1) with true by reflexivity. cbn [bind]. cbn [path].
      destruct ((0 <=? w) && (w <=? 2) && (1 <=? l) && (l <=? 1490) && (1 <=? c)) eqn:B.
      - rewrite (BA None eq_refl), (PT eq_refl). cbn [negb andb]. destruct to as [t|]; cbn [app Z.eqb orb]; eexists _, _; (split; [reflexivity|]); (split; [exact SL|]); eexists; (split; [reflexivity|]); destruct ret; reflexivity.
      - destruct (BB None eq_refl) as [d D]. rewrite D. eexists _, _. split; [reflexivity|]. split; [exact SL|]. destruct to; cbn [andb]; eauto. }
  replace (v =? -1) with false by lia.
  assert (R2 : resolve (c_apa a) (c_anode a) = Ok (addr (c_apa a) (c_anode a))). { assert (X : Some v <> None) by discriminate. specialize (N2 X). unfold resolve, addr, named in *. destruct (c_apa a); [reflexivity|]. destruct (c_anode a) as [[m|]|]; try reflexivity. contradiction (N2 eq_refl). reflexivity. }
  rewrite R2. cbn [bind].
  destruct (2 <? v) eqn:V2.
  { destruct (BC 154) as [d D]. rewrite D. eexists _, _. split; [reflexivity|]. split; [exact SL|]. replace (path to (addr (c_apa a) (c_anode a)) (Some v)) with (@None (list (list Z))); [eauto|].
    unfold path. destruct v as [|[x|[y|y|]|]|]; try lia; destruct to; try reflexivity; destruct (addr (c_apa a) (c_anode a)); reflexivity. }
  assert (VV : v = 0 \/ v = 1 \/ v = 2) by lia.
  destruct (addr (c_apa a) (c_anode a)) as [h|] eqn:AH.
  2:{ destruct (BC 153) as [d D]. rewrite D. eexists _, _. split; [reflexivity|]. split; [exact SL|]. destruct VV as [-> |[-> | -> ]]; destruct to; cbn [path]; eauto. }
  assert (MH : match c_apa a with Some _ => if multi h then Some 153 else match to with Some _ => None | None => Some 10 end | None => match to with Some _ => None | None => Some 10 end end
               = if match c_apa a with Some m => multi m | None => false end then Some 153 else match to with Some _ => None | None => Some 10 end).
  { unfold addr in AH. destruct (c_apa a); [injection AH as -> ; reflexivity|reflexivity]. }
  rewrite MH. destruct (match c_apa a with Some m => multi m | None => false end) eqn:MU.
  { destruct (BC 153) as [d D]. rewrite D. eexists _, _. split; [reflexivity|]. split; [exact SL|]. rewrite andb_false_r. destruct (path _ _ _); eauto. }
  destruct to as [t|].
  2:{ destruct (BC 10) as [d D]. rewrite D. eexists _, _. split; [reflexivity|]. split; [exact SL|]. destruct VV as [-> |[-> | -> ]]; cbn [path]; eauto. }
  destruct ((0 <=? w) && (w <=? 2) && (1 <=? l) && (l <=? 1490) && (1 <=? c)) eqn:B.
  - rewrite (BA None eq_refl), (PT eq_refl). cbn [negb andb]. destruct VV as [-> |[-> | -> ]]; cbn [app Z.eqb Pos.eqb orb path]; eexists _, _; (split; [reflexivity|]); (split; [exact SL|]); eexists; (split; [reflexivity|]); destruct ret; reflexivity.
  - destruct (BB None eq_refl) as [d D]. rewrite D. eexists _, _. split; [reflexivity|]. split; [exact SL|]. cbn [andb]. destruct (path _ _ _); eauto.
Qed.
Print Assumptions nml_loop_path.

(** What MOP reports at the end of a circuit loop is passed on, once. *)
Theorem nml_mop_done : forall s r, exists p, nstep s (NMopDone r) = Ok (s, [Reply p]) /\
  match r with inl n => p = NLoopErr (-25) 0 n | inr mac => p = NLoopOk (Some mac) end.
Proof. intros s [n|m]; eexists; split; reflexivity. Qed.
Print Assumptions nml_mop_done.
(** A circuit that does not exist, and a node name that is not known. *)
Theorem nml_loop_nocircuit : forall s a ret, n_ph2 s = false -> nstep s (NReq (QLoopCirc false a ret)) = Ok (s, [Reply (NLoopErr (-8) 3 0)]).
Proof. intros s a ret P. cbn [nstep nml_request]. rewrite P. reflexivity. Qed.
Print Assumptions nml_loop_nocircuit.
Theorem nml_loop_noname_refuted : forall s a ret, n_ph2 s = false -> c_pa a = None -> c_node a = Some None -> nstep s (NReq (QLoopCirc true a ret)) = Err EKey.
Proof. intros s a ret P A N. cbn [nstep nml_request]. rewrite P. unfold loop_circuit. cbn [negb]. rewrite A, N. reflexivity. Qed.
Print Assumptions nml_loop_noname_refuted.

(** * Examples *)
Example nml_demo : match nrun (nml_init [4; 0; 0])
    [NReq (QRead false true (ADict false [EOne [7]; EMany [[8]; [9]]])); NReq (QRead false false (ADict true []));
     NReq (QLoopNode true {| a_with := Some 1; a_len := Some 2; a_count := Some 2 |}); NAccept 0 mirror_accept; NData 0 [1; 255; 255] QBad; NData 0 [1; 255; 254] QBad] with
  | Ok (_, o) => Some o | Err _ => None end
  = Some [Reply (NCode 2 0); Reply (NItem 1 [7]); Reply (NItem 3 [8]); Reply (NItem 1 [9]); Reply (NCode (-128) 0); Reply (NCode (-8) 0xffff);
          Connect 0; Send 0 [0; 255; 255]; Send 0 [0; 255; 255]; Abort 0; Reply (NLoopErr (-28) 0 1)].
Proof. vm_compute. reflexivity. Qed.
Example nml_valid : valid {| a_with := Some 1; a_len := Some 2; a_count := Some 2 |} /\ answer_ok (ADict false [EOne [7]; EMany [[8]; [9]]]) /\ answer_ok (ADict true []).
Proof. unfold valid. cbn [dflt a_with a_len a_count answer_ok]. repeat split; try lia; try discriminate. Qed.
Example nml_path : exists s2, nstep (nml_init [4; 0; 0]) (NReq (QLoopCirc true {| c_base := {| a_with := None; a_len := Some 2; a_count := None |}; c_pa := Some [2; 0; 0; 0; 0; 1]; c_node := None; c_help := Some 2; c_apa := None; c_anode := Some (Some [170; 0; 4; 0; 1; 4]) |} MStarted)) =
  Ok (s2, [MopLoop [[170; 0; 4; 0; 1; 4]; [2; 0; 0; 0; 0; 1]; [170; 0; 4; 0; 1; 4]] 1 [85; 85]]).
Proof. eexists. vm_compute. reflexivity. Qed.
