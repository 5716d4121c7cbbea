(** C47: keyboard input and console output over the console carrier. *)
From Verif Require Import Base CarrierModel.

(** * Specification: what happened, from the log *)
(** Input accepted from the API client; input the terminal took or that was
    dropped by a failing write; terminal output put into responses, one entry
    for each command; data given to the API client; how often each command was
    sent. *)
Fixpoint posted (o : list kout) : list Z := match o with [] => [] | OPost d :: t => d ++ posted t | _ :: t => posted t end.
Fixpoint handled (o : list kout) : list Z := match o with [] => [] | OWrite d :: t | OLost d :: t => d ++ handled t | _ :: t => handled t end.
Fixpoint written (o : list kout) : list Z := match o with [] => [] | OWrite d :: t => d ++ written t | _ :: t => written t end.
Fixpoint reads (o : list kout) : list (list Z) := match o with [] => [] | ORead d :: t => d :: reads t | _ :: t => reads t end.
Fixpoint datas (o : list kout) : list (list Z) := match o with [] => [] | OData d :: t => d :: datas t | _ :: t => datas t end.
Fixpoint again_count (o : list kout) : Z := match o with ORepoll :: t => 1 + again_count t | OPoll _ :: _ => 0 | _ :: t => again_count t | [] => 0 end.
Fixpoint sends (o : list kout) : list Z := match o with [] => [] | OPoll _ :: t => (1 + again_count t) :: sends t | _ :: t => sends t end.
(** Each element of the second list as often as the first one says. *)
Fixpoint expand (ns : list Z) (l : list (list Z)) : list (list Z) :=
  match ns, l with n :: ns, x :: l => repeat x (Z.to_nat n) ++ expand ns l | _, _ => [] end.
Definition nonempty (l : list Z) : bool := match l with [] => false | _ => true end.

(** * Lemmas on the log *)
Lemma posted_app : forall a b, posted (a ++ b) = posted a ++ posted b.
Proof. induction a as [|[] a IH]; intros b; cbn [app posted]; rewrite ?IH, ?app_assoc; reflexivity. Qed.
Lemma handled_app : forall a b, handled (a ++ b) = handled a ++ handled b.
Proof. induction a as [|[] a IH]; intros b; cbn [app handled]; rewrite ?IH, ?app_assoc; reflexivity. Qed.
Lemma reads_app : forall a b, reads (a ++ b) = reads a ++ reads b.
Proof. induction a as [|[] a IH]; intros b; cbn [app reads]; rewrite ?IH; reflexivity. Qed.
Lemma datas_app : forall a b, datas (a ++ b) = datas a ++ datas b.
Proof. induction a as [|[] a IH]; intros b; cbn [app datas]; rewrite ?IH; reflexivity. Qed.
Definition haspoll (o : list kout) : bool := existsb (fun e => match e with OPoll _ => true | _ => false end) o.
Lemma again_app : forall a b, again_count (a ++ b) = again_count a + if haspoll a then 0 else again_count b.
Proof. unfold haspoll. induction a as [|[] a IH]; intros b; cbn [app again_count existsb orb]; rewrite ?IH; try destruct (existsb _ a); lia. Qed.
Definition bump (n : Z) (l : list Z) : list Z := match rev l with [] => [] | x :: t => rev ((x + n) :: t) end.
Lemma bump_snoc : forall n l x, bump n (l ++ [x]) = l ++ [x + n].
Proof. intros. unfold bump. rewrite rev_app_distr. cbn [rev app]. rewrite rev_involutive. reflexivity. Qed.
Lemma sends_none : forall o, haspoll o = false -> sends o = [].
Proof. unfold haspoll. induction o as [|[] o IH]; cbn [existsb sends orb]; intros H; try discriminate; auto. Qed.
Lemma sends_app : forall a b, sends (a ++ b) = bump (again_count b) (sends a) ++ sends b.
Proof.
  induction a as [|e a IH]; intros b; [reflexivity|].
  destruct e; cbn [app sends]; try apply IH.
  rewrite IH, again_app. destruct (haspoll a) eqn:H.
  - assert (N : sends a <> []) by (clear - H; unfold haspoll in H; induction a as [|[] a IH]; cbn [existsb sends orb] in *; try discriminate; auto).
    destruct (exists_last N) as (l & x & -> ). change ((1 + again_count a) :: l ++ [x]) with (((1 + again_count a) :: l) ++ [x]). rewrite !bump_snoc. cbn [app]. f_equal. lia.
  - rewrite (sends_none a H). change [1 + again_count a] with ([] ++ [1 + again_count a]). rewrite bump_snoc. unfold bump. cbn [rev app]. f_equal. lia.
Qed.
Lemma sends_repoll : forall o l m, sends o = l ++ [m] -> sends (o ++ [ORepoll]) = l ++ [m + 1].
Proof. intros o l m H. rewrite sends_app, H, bump_snoc. cbn [again_count sends]. rewrite app_nil_r. f_equal. Qed.
Lemma sends_other : forall o b, haspoll b = false -> again_count b = 0 -> sends (o ++ b) = sends o.
Proof.
  intros o b H A. rewrite sends_app, A, (sends_none b H), app_nil_r. destruct (sends o) as [|x l] using rev_ind; [reflexivity|]. rewrite bump_snoc. f_equal. f_equal. lia.
Qed.
Lemma sends_poll : forall o p, sends (o ++ [OPoll p]) = sends o ++ [1].
Proof.
  intros o p. rewrite sends_app. cbn [again_count sends]. destruct (sends o) as [|x l] using rev_ind; [reflexivity|]. rewrite bump_snoc. f_equal. f_equal. f_equal. lia.
Qed.
Lemma expand_app : forall A R n r, length A = length R -> expand (A ++ [n]) (R ++ [r]) = expand A R ++ repeat r (Z.to_nat n).
Proof.
  induction A as [|a A IH]; intros [|x R] n r L; cbn [length] in L; try discriminate; cbn [app expand]; [apply app_nil_r|].
  rewrite IH by lia. apply app_assoc.
Qed.

(** * Invariant *)
(** Of the commands before the current one: A how often their response was
    accepted, S how often they were sent, R their responses.  Of the current
    one: n, m, its payload p, and pr its response if the server has seen it.
    In transit: old and current copies. *)
Definition flip (z : Z) : Z := Z.lxor z 1.
Record ginv (c : client) (s : server) (olds cur oldr curr : list frame) (o : list kout)
            (A : list Z) (n : Z) (S1 : list Z) (m : Z) (R : list (list Z)) (p : list Z) (pr : option (list Z)) : Prop := {
  g_bit : cseq c = 0 \/ cseq c = 1;
  g_sseq : sseq s = match pr with Some _ => cseq c | None => flip (cseq c) end;
  g_resp : match pr with Some r => sresp s = Some (cseq c, r) | None => match sresp s with Some q => fst q = sseq s | None => True end end;
  g_reads : reads o = R ++ match pr with Some r => [r] | None => [] end;
  g_sends : sends o = S1 ++ [m];
  g_len : length A = length R;
  g_A : Forall2 (fun a b => 1 <= a <= b) A S1;
  g_data : datas o = filter nonempty (expand A R ++ match pr with Some r => repeat r (Z.to_nat n) | None => [] end);
  g_n : 0 <= n;
  g_n0 : pr = None -> n = 0;
  g_msg : cup c = true -> match cmsg c with Some q => q = p /\ n = 0 | None => 1 <= n end;
  g_olds : Forall (fun f => fst f = flip (cseq c)) olds;
  g_cur : Forall (fun f => f = (cseq c, p)) cur;
  g_pr : pr <> None -> olds = [];
  g_oldr : Forall (fun f => fst f = flip (cseq c)) oldr;
  g_curr : match pr with Some r => Forall (fun f => f = (cseq c, r)) curr | None => curr = [] end;
  g_on : 1 <= n -> oldr = [];
  g_cnt : zlen cur + zlen curr + n <= m;
  g_inp : posted o = handled o ++ spend s ++ (match pr with Some _ => [] | None => p end) ++ cpend c;
  g_sout : sout s = [] }.
Definition kinv (k : world) (o : list kout) : Prop :=
  exists olds cur oldr curr A n S1 m R p pr, to_s k = olds ++ cur /\ to_c k = oldr ++ curr /\ ginv (wc k) (ws k) olds cur oldr curr o A n S1 m R p pr.
Lemma flip_bit : forall z, z = 0 \/ z = 1 -> flip (flip z) = z /\ flip z <> z /\ (flip z = 0 \/ flip z = 1).
Proof. intros z [-> | -> ]; cbn; repeat split; try lia. Qed.

(* only the number of retries changes *)
Definition same_client (a b : client) : Prop := cseq a = cseq b /\ cmsg a = cmsg b /\ cpend a = cpend b /\ cup a = cup b.
Lemma kinv_same : forall c c2 s ts tc o, kinv {| wc := c; ws := s; to_s := ts; to_c := tc |} o -> same_client c c2 -> kinv {| wc := c2; ws := s; to_s := ts; to_c := tc |} o.
Proof.
  intros c c2 s ts tc o (olds & cur & oldr & curr & A & n & S1 & m & R & p & pr & E1 & E2 & V) (H1 & H2 & H3 & H4). cbn [wc ws to_s to_c] in *.
  exists olds, cur, oldr, curr, A, n, S1, m, R, p, pr. cbn [wc ws to_s to_c]. split; [exact E1|]. split; [exact E2|].
  destruct V. constructor; rewrite <- ?H1, <- ?H2, <- ?H3, <- ?H4; assumption.
Qed.
Lemma kinv_poll : forall size c s ts tc o c2 f o2, kinv {| wc := c; ws := s; to_s := ts; to_c := tc |} o -> cup c = true ->
  sendpoll size c = (c2, f, o2) -> kinv {| wc := c2; ws := s; to_s := ts ++ [f]; to_c := tc |} (o ++ o2).
Proof.
  intros size c s ts tc o c2 f o2 (olds & cur & oldr & curr & A & n & S1 & m & R & p & pr & E1 & E2 & V) U E. cbn [wc ws to_s to_c] in *.
  assert (G := g_msg _ _ _ _ _ _ _ _ _ _ _ _ _ _ V U). unfold sendpoll in E. cbn zeta in E.
  destruct (cmsg c) as [q|] eqn:M.
  - destruct G as [-> N0]. injection E as <- <- <- .
    exists olds, (cur ++ [(cseq c, p)]), oldr, curr, A, n, S1, (m + 1), R, p, pr. cbn [wc ws to_s to_c]. rewrite E1, app_assoc. split; [reflexivity|]. split; [exact E2|].
    destruct V. constructor; rewrite ?reads_app, ?datas_app, ?posted_app, ?handled_app, ?(sends_repoll _ _ _ g_sends0), ?app_nil_r; cbn [reads datas posted handled]; rewrite ?app_nil_r; try assumption; try reflexivity.
    + apply Forall_app. split; [assumption|]. repeat constructor.
    + rewrite zlen_app, zlen_cons, zlen_nil. lia.
  - destruct (flip_bit (cseq c) (g_bit _ _ _ _ _ _ _ _ _ _ _ _ _ _ V)) as (F1 & F2 & F3).
    injection E as <- <- <- . destruct pr as [r|]; [|rewrite (g_n0 _ _ _ _ _ _ _ _ _ _ _ _ _ _ V eq_refl) in G; lia].
    assert (OS : olds = []) by (apply (g_pr _ _ _ _ _ _ _ _ _ _ _ _ _ _ V); discriminate).
    assert (OR : oldr = []) by (apply (g_on _ _ _ _ _ _ _ _ _ _ _ _ _ _ V); exact G). subst olds oldr. cbn [app] in *.
    exists ts, [(flip (cseq c), upto size (cpend c))], tc, [], (A ++ [n]), 0, (S1 ++ [m]), 1, (R ++ [r]), (upto size (cpend c)), None.
    cbn [wc ws to_s to_c]. split; [reflexivity|]. split; [rewrite app_nil_r; reflexivity|].
    assert (NM : n <= m) by (pose proof (g_cnt _ _ _ _ _ _ _ _ _ _ _ _ _ _ V); pose proof (zlen_nonneg _ cur); pose proof (zlen_nonneg _ curr); lia).
    destruct V. subst ts tc. constructor; cbn [cseq cmsg cpend cup]; rewrite ?reads_app, ?datas_app, ?posted_app, ?handled_app, ?sends_poll; cbn [reads datas posted handled]; rewrite ?app_nil_r; fold (flip (cseq c)); try assumption; try lia; try reflexivity; try discriminate.
    + rewrite g_resp0, g_sseq0. reflexivity.
    + rewrite g_sends0. reflexivity.
    + rewrite !app_length, g_len0. reflexivity.
    + apply Forall2_app; [assumption|]. constructor; [lia|constructor].
    + rewrite expand_app by assumption. assumption.
    + intros _. split; [reflexivity|lia].
    + rewrite F1. eapply Forall_impl; [|exact g_cur0]. intros a -> . reflexivity.
    + repeat constructor.
    + intros H. contradiction.
    + rewrite F1. eapply Forall_impl; [|exact g_curr0]. intros a -> . reflexivity.
    + rewrite g_inp0. cbn [app]. rewrite upto_from. reflexivity.
Qed.
Lemma kinv_down : forall c s ts tc o c2, kinv {| wc := c; ws := s; to_s := ts; to_c := tc |} o -> cseq c2 = cseq c -> cpend c2 = cpend c -> cup c2 = false ->
  kinv {| wc := c2; ws := s; to_s := ts; to_c := tc |} (o ++ [ODisc]).
Proof.
  intros c s ts tc o c2 (olds & cur & oldr & curr & A & n & S1 & m & R & p & pr & E1 & E2 & V) H1 H2 H3. cbn [wc ws to_s to_c] in *.
  exists olds, cur, oldr, curr, A, n, S1, m, R, p, pr. cbn [wc ws to_s to_c]. split; [exact E1|]. split; [exact E2|].
  destruct V. constructor; rewrite ?H1, ?H2, ?reads_app, ?datas_app, ?posted_app, ?handled_app, ?sends_other by reflexivity; cbn [reads datas posted handled]; rewrite ?app_nil_r; try assumption. congruence.
Qed.
Lemma kinv_again : forall size c s ts tc o c2 fs o2, kinv {| wc := c; ws := s; to_s := ts; to_c := tc |} o -> cup c = true ->
  again size c = (c2, fs, o2) -> kinv {| wc := c2; ws := s; to_s := ts ++ fs; to_c := tc |} (o ++ o2).
Proof.
  intros size c s ts tc o c2 fs o2 V U E. unfold again in E. cbn zeta in E. destruct (cretries c - 1 =? 0).
  - injection E as <- <- <- . rewrite app_nil_r. eapply kinv_down; [exact V|reflexivity|reflexivity|reflexivity].
  - match type of E with context [sendpoll size ?z] => assert (V2 : kinv {| wc := z; ws := s; to_s := ts; to_c := tc |} o) by (eapply kinv_same; [exact V|repeat split]); destruct (sendpoll size z) as [[c3 f3] o3] eqn:P end.
    injection E as <- <- <- . eapply kinv_poll; [exact V2| |exact P]. exact U.
Qed.
Lemma kinv_pop_c : forall c s ts f tc o, kinv {| wc := c; ws := s; to_s := ts; to_c := f :: tc |} o -> kinv {| wc := c; ws := s; to_s := ts; to_c := tc |} o.
Proof.
  intros c s ts f tc o (olds & cur & oldr & curr & A & n & S1 & m & R & p & pr & E1 & E2 & V). cbn [wc ws to_s to_c] in *.
  destruct oldr as [|g oldr]; cbn [app] in E2.
  - destruct curr as [|g curr]; [discriminate|]. injection E2 as <- -> . exists olds, cur, [], curr, A, n, S1, m, R, p, pr. cbn [wc ws to_s to_c]. split; [exact E1|]. split; [reflexivity|].
    destruct V. constructor; try assumption.
    + destruct pr; [inversion g_curr0; assumption|discriminate].
    + rewrite zlen_cons in g_cnt0. lia.
  - injection E2 as <- -> . exists olds, cur, oldr, curr, A, n, S1, m, R, p, pr. cbn [wc ws to_s to_c]. split; [exact E1|]. split; [reflexivity|].
    destruct V. constructor; try assumption; [inversion g_oldr0; assumption|]. intros H. specialize (g_on0 H). discriminate.
Qed.
Lemma kinv_pop_s : forall c s ts f tc o, kinv {| wc := c; ws := s; to_s := f :: ts; to_c := tc |} o -> kinv {| wc := c; ws := s; to_s := ts; to_c := tc |} o.
Proof.
  intros c s ts f tc o (olds & cur & oldr & curr & A & n & S1 & m & R & p & pr & E1 & E2 & V). cbn [wc ws to_s to_c] in *.
  destruct olds as [|g olds]; cbn [app] in E1.
  - destruct cur as [|g cur]; [discriminate|]. injection E1 as <- -> . exists [], cur, oldr, curr, A, n, S1, m, R, p, pr. cbn [wc ws to_s to_c]. split; [reflexivity|]. split; [exact E2|].
    destruct V. constructor; try assumption.
    + inversion g_cur0; assumption.
    + rewrite zlen_cons in g_cnt0. lia.
  - injection E1 as <- -> . exists olds, cur, oldr, curr, A, n, S1, m, R, p, pr. cbn [wc ws to_s to_c]. split; [reflexivity|]. split; [exact E2|].
    destruct V. constructor; try assumption; [inversion g_olds0; assumption|]. intros H. specialize (g_pr0 H). discriminate.
Qed.
Lemma kinv_accept : forall c s ts f tc o c2, kinv {| wc := c; ws := s; to_s := ts; to_c := f :: tc |} o -> fst f = cseq c -> cseq c2 = cseq c -> cpend c2 = cpend c -> cmsg c2 = None ->
  kinv {| wc := c2; ws := s; to_s := ts; to_c := tc |} (o ++ match snd f with [] => [] | d => [OData d] end).
Proof.
  intros c s ts f tc o c2 (olds & cur & oldr & curr & A & n & S1 & m & R & p & pr & E1 & E2 & V) FS H1 H2 H3. cbn [wc ws to_s to_c] in *.
  destruct (flip_bit (cseq c) (g_bit _ _ _ _ _ _ _ _ _ _ _ _ _ _ V)) as (F1 & F2 & F3).
  destruct oldr as [|g oldr]; cbn [app] in E2.
  2:{ injection E2 as <- -> . pose proof (g_oldr _ _ _ _ _ _ _ _ _ _ _ _ _ _ V) as X. inversion X; subst. congruence. }
  destruct pr as [r|]; [|pose proof (g_curr _ _ _ _ _ _ _ _ _ _ _ _ _ _ V) as X; subst curr; discriminate].
  destruct curr as [|g curr]; [discriminate|]. injection E2 as <- -> .
  assert (FR : f = (cseq c, r)) by (pose proof (g_curr _ _ _ _ _ _ _ _ _ _ _ _ _ _ V) as X; inversion X; assumption). subst f. cbn [snd].
  exists olds, cur, [], curr, A, (n + 1), S1, m, R, p, (Some r). cbn [wc ws to_s to_c]. split; [exact E1|]. split; [reflexivity|].
  assert (OD : forall b, reads (o ++ match r with [] => b | d => [OData d] end) = reads (o ++ b) \/ True) by auto. clear OD.
  set (ob := match r with [] => [] | _ :: _ => [OData r] end).
  assert (B : reads ob = [] /\ posted ob = [] /\ handled ob = [] /\ haspoll ob = false /\ again_count ob = 0 /\ datas ob = filter nonempty [r]) by (unfold ob; destruct r; repeat split; reflexivity).
  replace (match r with [] => [] | z :: l => [OData (z :: l)] end) with ob by (unfold ob; destruct r; reflexivity).
  destruct B as (B1 & B2 & B3 & B4 & B5 & B6). clearbody ob.
  destruct V. constructor; rewrite ?H1, ?H2, ?H3, ?reads_app, ?datas_app, ?posted_app, ?handled_app, ?(sends_other o ob B4 B5), ?B1, ?B2, ?B3, ?app_nil_r; try assumption; try lia; try discriminate.
  - rewrite B6, g_data0. rewrite <- filter_app, <- app_assoc. f_equal. f_equal. replace (Z.to_nat (n + 1)) with (Z.to_nat n + 1)%nat by lia. rewrite repeat_app. reflexivity.
  - inversion g_curr0; assumption.
  - reflexivity.
  - rewrite zlen_cons in g_cnt0. lia.
Qed.
Lemma kinv_command : forall c s ts f tc o w r s2 fs o2, kinv {| wc := c; ws := s; to_s := f :: ts; to_c := tc |} o -> s_command s f w r = (s2, fs, o2) ->
  kinv {| wc := c; ws := s2; to_s := ts; to_c := tc ++ fs |} (o ++ o2).
Proof.
  intros c s ts f tc o w r s2 fs o2 V E. unfold s_command in E. cbn zeta in E.
  destruct (negb (sup s)). { injection E as <- <- <- . rewrite !app_nil_r. eapply kinv_pop_s. exact V. }
  destruct V as (olds & cur & oldr & curr & A & n & S1 & m & R & p & pr & E1 & E2 & V). cbn [wc ws to_s to_c] in *.
  destruct (flip_bit (cseq c) (g_bit _ _ _ _ _ _ _ _ _ _ _ _ _ _ V)) as (F1 & F2 & F3).
  destruct (fst f =? sseq s) eqn:Q.
  - injection E as <- <- <- . rewrite app_nil_r. destruct pr as [r0|].
    + assert (X := g_pr _ _ _ _ _ _ _ _ _ _ _ _ _ _ V ltac:(discriminate)). subst olds. cbn [app] in E1. subst cur. rewrite (g_resp _ _ _ _ _ _ _ _ _ _ _ _ _ _ V).
      exists [], ts, oldr, (curr ++ [(cseq c, r0)]), A, n, S1, m, R, p, (Some r0). cbn [wc ws to_s to_c]. split; [reflexivity|]. split; [rewrite E2, app_assoc; reflexivity|].
      destruct V. constructor; try assumption.
      * inversion g_cur0; assumption.
      * apply Forall_app. split; [assumption|]. repeat constructor.
      * rewrite zlen_app, zlen_cons, zlen_nil. rewrite zlen_cons in g_cnt0. lia.
    + assert (SS := g_sseq _ _ _ _ _ _ _ _ _ _ _ _ _ _ V). cbn in SS. destruct olds as [|g olds]; cbn [app] in E1.
      { subst cur. pose proof (g_cur _ _ _ _ _ _ _ _ _ _ _ _ _ _ V) as X. inversion X; subst. cbn [fst] in Q. lia. }
      injection E1 as <- -> . assert (CN := g_curr _ _ _ _ _ _ _ _ _ _ _ _ _ _ V). cbn in CN. subst curr. rewrite app_nil_r in E2. subst tc.
      set (fs := match sresp s with Some q => [q] | None => [] end).
      assert (FF : Forall (fun f => fst f = flip (cseq c)) fs).
      { unfold fs. pose proof (g_resp _ _ _ _ _ _ _ _ _ _ _ _ _ _ V) as X. cbn in X. destruct (sresp s); repeat constructor. congruence. }
      clearbody fs. exists olds, cur, (oldr ++ fs), [], A, n, S1, m, R, p, None. cbn [wc ws to_s to_c]. split; [reflexivity|]. split; [rewrite app_nil_r; reflexivity|].
      destruct V. constructor; try assumption; try lia.
      * inversion g_olds0; assumption.
      * congruence.
      * apply Forall_app. split; assumption.
  - (* a new command *)
    assert (SS := g_sseq _ _ _ _ _ _ _ _ _ _ _ _ _ _ V). destruct pr as [r0|].
    { exfalso. assert (X := g_pr _ _ _ _ _ _ _ _ _ _ _ _ _ _ V ltac:(discriminate)). subst olds. cbn [app] in E1. subst cur. pose proof (g_cur _ _ _ _ _ _ _ _ _ _ _ _ _ _ V) as X. inversion X; subst. cbn [fst] in Q. lia. }
    destruct olds as [|g olds]; cbn [app] in E1.
    2:{ exfalso. injection E1 as <- -> . pose proof (g_olds _ _ _ _ _ _ _ _ _ _ _ _ _ _ V) as X. inversion X; subst. lia. }
    subst cur. assert (FP : f = (cseq c, p)) by (pose proof (g_cur _ _ _ _ _ _ _ _ _ _ _ _ _ _ V) as X; inversion X; assumption). subst f. cbn [snd fst] in *.
    assert (CN := g_curr _ _ _ _ _ _ _ _ _ _ _ _ _ _ V). cbn in CN. subst curr. rewrite app_nil_r in E2. subst tc.
    rewrite SS in E. fold (flip (flip (cseq c))) in E. rewrite F1 in E.
    assert (SO := g_sout _ _ _ _ _ _ _ _ _ _ _ _ _ _ V). rewrite SO in E. change (zlen (@nil Z) <? msgsize) with true in E. cbn iota in E. cbn [app] in E.
    match type of E with (_, [(_, ?x)], _) = _ => set (out := x) in * end. clearbody out.
    assert (NN := g_n0 _ _ _ _ _ _ _ _ _ _ _ _ _ _ V eq_refl). subst n.
    injection E as <- <- <- .
    set (inp := spend s ++ p) in *. set (acc := match w with Some n => n | None => zlen inp end) in *.
    assert (HW : handled [match w with Some _ => OWrite (upto acc inp) | None => OLost inp end; ORead out] ++ from acc inp = inp).
    { destruct w; cbn [handled app]; rewrite ?app_nil_r; [apply upto_from|]. unfold acc, from, zlen. rewrite Nat2Z.id, skipn_all, app_nil_r. reflexivity. }
    exists [], ts, oldr, [(cseq c, out)], A, 0, S1, m, R, p, (Some out). cbn [wc ws to_s to_c]. split; [reflexivity|]. split; [reflexivity|].
    set (o2 := [match w with Some _ => OWrite (upto acc inp) | None => OLost inp end; ORead out]) in *.
    assert (B : reads o2 = [out] /\ posted o2 = [] /\ haspoll o2 = false /\ again_count o2 = 0 /\ datas o2 = []) by (unfold o2; destruct w; repeat split; reflexivity).
    destruct B as (B1 & B2 & B3 & B4 & B5). clearbody o2 acc.
    destruct V. constructor; cbn [sseq spend sout sresp]; rewrite ?reads_app, ?datas_app, ?posted_app, ?handled_app, ?(sends_other o o2 B3 B4), ?B1, ?B2, ?B5, ?app_nil_r; try assumption; try reflexivity; try lia; try discriminate.
    + rewrite g_reads0, app_nil_r. reflexivity.
    + rewrite g_data0, ?app_nil_r. cbn [repeat Z.to_nat]. rewrite ?app_nil_r. reflexivity.
    + inversion g_cur0; assumption.
    + repeat constructor.
    + rewrite zlen_cons in g_cnt0. rewrite zlen_cons, !zlen_nil in *. lia.
    + rewrite g_inp0. cbn [app]. rewrite <- app_assoc. f_equal. rewrite !app_assoc. rewrite HW. reflexivity.
Qed.
Lemma kinv_post : forall c s ts tc o c2 d, kinv {| wc := c; ws := s; to_s := ts; to_c := tc |} o -> cseq c2 = cseq c -> cmsg c2 = cmsg c -> cup c2 = cup c -> cpend c2 = cpend c ++ d ->
  kinv {| wc := c2; ws := s; to_s := ts; to_c := tc |} (o ++ [OPost d]).
Proof.
  intros c s ts tc o c2 d (olds & cur & oldr & curr & A & n & S1 & m & R & p & pr & E1 & E2 & V) H1 H2 H3 H4. cbn [wc ws to_s to_c] in *.
  exists olds, cur, oldr, curr, A, n, S1, m, R, p, pr. cbn [wc ws to_s to_c]. split; [exact E1|]. split; [exact E2|].
  destruct V. constructor; rewrite ?H1, ?H2, ?H3, ?H4, ?reads_app, ?datas_app, ?posted_app, ?handled_app, ?sends_other by reflexivity; cbn [reads datas posted handled]; rewrite ?app_nil_r; try assumption.
  rewrite g_inp0, <- !app_assoc. reflexivity.
Qed.
Lemma kinv_step : forall size k o e k2 o2, kinv k o -> kstep size k e = (k2, o2) -> kinv k2 (o ++ o2).
Proof.
  intros size [c s ts tc] o e k2 o2 V E. destruct e as [d| |w r| | | | ]; cbn [kstep wc ws to_s to_c] in E; cbn zeta in E.
  - destruct (c_post size c d) as [[c2 fs] o3] eqn:P. injection E as <- <- . unfold c_post in P. destruct (negb (cup c)) eqn:U. { injection P as <- <- <- . rewrite !app_nil_r. exact V. }
    cbn zeta in P. destruct (match cpend c, cmsg c with [], None => false | _, _ => true end) eqn:B.
    + injection P as <- <- <- . rewrite app_nil_r. eapply kinv_post; [exact V|reflexivity|reflexivity|cbn [cup]; destruct (cup c); [reflexivity|discriminate]|reflexivity].
    + assert (CP : cpend c = []) by (destruct (cpend c), (cmsg c); congruence).
      match type of P with context [sendpoll size ?z] => assert (V2 : kinv {| wc := z; ws := s; to_s := ts; to_c := tc |} (o ++ [OPost d])) end.
      { eapply kinv_post; [exact V|reflexivity|reflexivity|cbn [cup]; destruct (cup c); [reflexivity|discriminate]|rewrite CP; reflexivity]. }
      match type of P with context [sendpoll size ?z] => destruct (sendpoll size z) as [[c3 f3] o4] eqn:Q end. injection P as <- <- <- .
      replace (o ++ OPost d :: o4) with ((o ++ [OPost d]) ++ o4) by (rewrite <- app_assoc; reflexivity). eapply kinv_poll; [exact V2|reflexivity|exact Q].
  - destruct (c_timeout size c) as [[c2 fs] o3] eqn:P. injection E as <- <- . unfold c_timeout in P. destruct (negb (cup c)) eqn:U. { injection P as <- <- <- . rewrite !app_nil_r. exact V. }
    eapply kinv_again; [exact V|destruct (cup c); [reflexivity|discriminate]|exact P].
  - destruct ts as [|f ts]; [injection E as <- <- ; rewrite app_nil_r; exact V|]. destruct (s_command s f w r) as [[s2 fs] o3] eqn:P. injection E as <- <- . eapply kinv_command; eassumption.
  - destruct tc as [|f tc]; [injection E as <- <- ; rewrite app_nil_r; exact V|]. destruct (c_response size c f) as [[c2 fs] o3] eqn:P. injection E as <- <- . unfold c_response in P.
    destruct (negb (cup c)) eqn:U. { injection P as <- <- <- . rewrite !app_nil_r. eapply kinv_pop_c. exact V. }
    destruct (fst f =? cseq c) eqn:Q.
    + cbn zeta in P. assert (V2 := fun c2 => kinv_accept c s ts f tc o c2 V ltac:(lia)).
      set (od := match snd f with [] => [] | _ => _ end) in *. 
      match type of P with context [sendpoll size ?z] => specialize (V2 z eq_refl eq_refl eq_refl) end.
      destruct (cpend c) as [|i l]. { injection P as <- <- <- . rewrite app_nil_r. exact V2. }
      match type of P with context [sendpoll size ?z] => destruct (sendpoll size z) as [[c3 f3] o4] eqn:QQ end. injection P as <- <- <- . rewrite app_assoc. eapply kinv_poll; [exact V2|reflexivity|exact QQ].
    + eapply kinv_again; [eapply kinv_pop_c; exact V|destruct (cup c); [reflexivity|discriminate]|exact P].
  - injection E as <- <- . rewrite app_nil_r. destruct ts as [|f ts]; [exact V|]. eapply kinv_pop_s. exact V.
  - injection E as <- <- . rewrite app_nil_r. destruct tc as [|f tc]; [exact V|]. eapply kinv_pop_c. exact V.
  - injection E as <- <- . rewrite app_nil_r. destruct V as (olds & cur & oldr & curr & A & n & S1 & m & R & p & pr & E1 & E2 & V). cbn [wc ws to_s to_c] in *.
    exists olds, cur, oldr, curr, A, n, S1, m, R, p, pr. cbn [wc ws to_s to_c]. split; [exact E1|]. split; [exact E2|]. destruct V. constructor; assumption.
Qed.
Lemma kinv_run : forall size l k o k2 o2, kinv k o -> krun size k l = (k2, o2) -> kinv k2 (o ++ o2).
Proof.
  intros size. induction l as [|e t IH]; intros k o k2 o2 V E; cbn [krun] in E; [injection E as <- <- ; rewrite app_nil_r; exact V|].
  destruct (kstep size k e) as [k1 o1] eqn:E1. destruct (krun size k1 t) as [k3 o3] eqn:E2. injection E as <- <- . rewrite app_assoc. eapply IH; [|exact E2]. eapply kinv_step; eassumption.
Qed.
Lemma kinv_start : forall size l k o, carrier size l = (k, o) -> kinv k o.
Proof.
  intros size l k o E. unfold carrier, sendpoll in E. cbn [client0 cmsg cseq cpend cup] in E. change (Z.lxor 0 1) with 1 in E. unfold upto, from in E. rewrite firstn_nil, skipn_nil in E.
  match type of E with context [krun size ?z l] => set (k0 := z) in * end. destruct (krun size k0 l) as [k3 o3] eqn:E2. injection E as <- <- . eapply (kinv_run size l k0 [OPoll []]); [|exact E2].
  exists [], [(1, [])], [], [], [], 0, [], 1, [], [], None. split; [reflexivity|]. split; [reflexivity|].
  constructor; cbn; try lia; try constructor; try discriminate; auto.
Qed.

(** * Theorems *)
(** Keyboard input, for every schedule of input, polls, losses and timeouts:
    what the terminal took, together with what a failing write dropped, is an
    initial part of what was typed, and the rest is still waiting at the server,
    in the command that is under way, or at the client.  So every byte reaches
    the terminal at most once and in order. *)
Theorem carrier_input_partial : forall size l k o, carrier size l = (k, o) ->
  exists p, posted o = handled o ++ spend (ws k) ++ p ++ cpend (wc k) /\
  (cup (wc k) = true -> p = [] \/ cmsg (wc k) = Some p).
Proof.
  intros size l k o E. destruct (kinv_start size l k o E) as (olds & cur & oldr & curr & A & n & S1 & m & R & p & pr & E1 & E2 & V).
  destruct pr as [r|].
  - exists []. split; [exact (g_inp _ _ _ _ _ _ _ _ _ _ _ _ _ _ V)|auto].
  - exists p. split; [exact (g_inp _ _ _ _ _ _ _ _ _ _ _ _ _ _ V)|]. intros U. right. pose proof (g_msg _ _ _ _ _ _ _ _ _ _ _ _ _ _ V U) as X. destruct (cmsg (wc k)); [destruct X; congruence|].
    rewrite (g_n0 _ _ _ _ _ _ _ _ _ _ _ _ _ _ V eq_refl) in X. lia.
Qed.
(** If no write fails, what the terminal took is an initial part of the input,
    and all of it once the client has nothing left to send and the server
    nothing left to write. *)
Theorem carrier_typed_partial : forall size l k o, carrier size l = (k, o) -> (forall d, ~ In (OLost d) o) ->
  (exists rest, posted o = written o ++ rest) /\
  (cup (wc k) = true -> cmsg (wc k) = None -> cpend (wc k) = [] -> spend (ws k) = [] -> posted o = written o).
Proof.
  intros size l k o E NL. destruct (carrier_input_partial size l k o E) as (p & H & Q).
  assert (HW : handled o = written o).
  { clear - NL. induction o as [|e o IH]; [reflexivity|]. assert (N2 : forall d, ~ In (OLost d) o) by (intros d F; apply (NL d); right; exact F). specialize (IH N2).
    destruct e as [ | | | | | | d | ]; cbn [handled written]; rewrite ?IH; try reflexivity. exfalso. apply (NL d). left. reflexivity. }
  rewrite HW in H. split; [eexists; exact H|]. intros U M C S2. destruct (Q U) as [-> |F]; [|congruence]. rewrite C, S2, !app_nil_r in H. exact H.
Qed.
(** Console output: the data given to the API client are the responses of the
    server in order, none left out except possibly the latest, and each one
    once for every time its response arrived: at least once, and at most as
    often as its command was sent. *)
Theorem carrier_output_partial : forall size l k o, carrier size l = (k, o) ->
  exists ns, (length ns = length (reads o) \/ S (length ns) = length (reads o)) /\
  datas o = filter nonempty (expand ns (reads o)) /\
  Forall2 (fun n s => 1 <= n <= s) ns (firstn (length ns) (sends o)).
Proof.
  intros size l k o E. destruct (kinv_start size l k o E) as (olds & cur & oldr & curr & A & n & S1 & m & R & p & pr & E1 & E2 & V).
  assert (LS : length S1 = length A) by (pose proof (g_A _ _ _ _ _ _ _ _ _ _ _ _ _ _ V) as X; clear - X; induction X; cbn [length]; lia).
  assert (CNT := g_cnt _ _ _ _ _ _ _ _ _ _ _ _ _ _ V). assert (NC := zlen_nonneg _ cur). assert (NR := zlen_nonneg _ curr).
  assert (EXT : forall A R x, length A = length R -> expand A (R ++ x) = expand A R).
  { clear. induction A as [|a A IH]; intros [|y R] x L; cbn [length] in L; try discriminate; [destruct x; reflexivity|]. cbn [app expand]. rewrite IH by lia. reflexivity. }
  destruct V. rewrite g_reads0, g_data0, g_sends0. destruct pr as [r|].
  - destruct (Z.eq_dec n 0) as [-> |NZ].
    + exists A. rewrite app_length. cbn [length]. split; [right; lia|]. split; [rewrite EXT by assumption; cbn [repeat Z.to_nat]; rewrite app_nil_r; reflexivity|].
      rewrite <- LS, firstn_app, Nat.sub_diag, firstn_all. cbn [firstn]. rewrite app_nil_r. assumption.
    + exists (A ++ [n]). rewrite !app_length. cbn [length]. split; [left; lia|]. split; [rewrite expand_app by assumption; reflexivity|].
      replace (length A + 1)%nat with (length (S1 ++ [m])) by (rewrite app_length; cbn [length]; lia). rewrite firstn_all. apply Forall2_app; [assumption|]. constructor; [lia|constructor].
  - exists A. rewrite !app_nil_r. split; [left; exact g_len0|]. split; [reflexivity|]. rewrite <- LS, firstn_app, Nat.sub_diag, firstn_all. cbn [firstn]. rewrite app_nil_r. assumption.
Qed.
(** Without retransmitted commands the output arrives exactly once. *)
Theorem carrier_once_partial : forall size l k o, carrier size l = (k, o) -> ~ In ORepoll o ->
  datas o = filter nonempty (reads o) \/ datas o = filter nonempty (removelast (reads o)).
Proof.
  intros size l k o E NR. destruct (carrier_output_partial size l k o E) as (ns & L & D & F).
  assert (ONE : Forall (fun s => s = 1) (sends o)).
  { clear - NR. induction o as [|e o IH]; [constructor|]. assert (N2 : ~ In ORepoll o) by (intros H; apply NR; right; exact H). specialize (IH N2).
    destruct e; cbn [sends]; try exact IH. constructor; [|exact IH]. enough (again_count o = 0) by lia. clear - N2. induction o as [|e o IH]; [reflexivity|].
    destruct e; cbn [again_count]; try reflexivity; try (apply IH; intros H; apply N2; right; exact H). exfalso. apply N2. left. reflexivity. }
  assert (N1 : ns = repeat 1 (length ns)).
  { assert (X : Forall (fun s => s = 1) (firstn (length ns) (sends o))) by (rewrite Forall_forall in *; intros x IN; apply ONE; rewrite <- (firstn_skipn (length ns) (sends o)); apply in_or_app; auto).
    clear - F X. remember (firstn (length ns) (sends o)) as S1 eqn:Q. clear Q. induction F as [|a b ns S1 H F IH]; [reflexivity|]. inversion X; subst. cbn [length repeat]. rewrite <- IH by assumption. f_equal. lia. }
  assert (EX : forall n R, length R = n -> expand (repeat 1 n) R = R).
  { clear. induction n as [|n IH]; intros [|x R] L; cbn [length] in L; try discriminate; [reflexivity|]. cbn [repeat expand Z.to_nat Pos.to_nat Pos.iter_op app]. rewrite IH by lia. reflexivity. }
  assert (EX2 : forall n R, length R = S n -> expand (repeat 1 n) R = removelast R).
  { clear. induction n as [|n IH]; intros [|x R] L; cbn [length] in L; try discriminate; [destruct R; [reflexivity|discriminate]|]. destruct R as [|y R]; [discriminate|].
    cbn [repeat expand Z.to_nat Pos.to_nat Pos.iter_op app]. rewrite IH by (cbn [length] in *; lia). reflexivity. }
  rewrite N1 in D. destruct L as [L|L]; [left; rewrite EX in D by lia; exact D|right; rewrite EX2 in D by lia; exact D].
Qed.

(** What does not hold. *)
(** No client connection gets that far: its first RequestId needs a receipt,
    which MopCircuit.request cannot draw. *)
Theorem carrier_start_refuted : carrier_start true false = Err EAttr /\ forall known busy, carrier_start known busy <> Ok true.
Proof. split; [reflexivity|intros [] []; discriminate]. Qed.
(** A response that is still under way when the poll timer expires is given to
    the API client twice; no frame is lost here. *)
Theorem carrier_output_refuted : exists k,
  carrier 80 [KTimeout; KToServer (Some 0) (Some [104; 105]); KToServer (Some 0) (Some [33]); KToClient; KToClient] =
  (k, [OPoll []; ORepoll; OWrite []; ORead [104; 105]; OData [104; 105]; OData [104; 105]]).
Proof. eexists. vm_compute. reflexivity. Qed.
(** Input is lost when the terminal is not ready: a non-blocking write fails
    with BlockingIOError, which counts as written. *)
Theorem carrier_input_refuted : exists k,
  carrier 80 [KToServer (Some 0) None; KToClient; KPost [108; 115]; KToServer None None; KToClient] =
  (k, [OPoll []; OWrite []; ORead []; OPost [108; 115]; OPoll [108; 115]; OLost [108; 115]; ORead []]) /\
  cmsg (wc k) = None /\ cpend (wc k) = [] /\ spend (ws k) = [].
Proof. eexists. split; [vm_compute; reflexivity|]. repeat split. Qed.
(** A session with a lost command, a lost response and a write that takes only
    part of the input. *)
Example carrier_example :
  exists k, carrier 3 [KPost [97; 98; 99; 100]; KLoseToServer; KTimeout; KToServer (Some 0) (Some [36]); KLoseToClient; KTimeout; KToServer None None; KToClient;
    KToServer (Some 2) (Some [97; 98]); KToClient; KToServer (Some 2) None; KToClient] =
  (k, [OPoll []; OPost [97; 98; 99; 100]; ORepoll; OWrite []; ORead [36]; ORepoll; OData [36]; OPoll [97; 98; 99]; OWrite [97; 98]; ORead [97; 98]; OData [97; 98]; OPoll [100]; OWrite [99; 100]; ORead []]) /\
  (forall d, ~ In (OLost d) (snd (carrier 3 [KPost [97; 98; 99; 100]; KLoseToServer; KTimeout; KToServer (Some 0) (Some [36]); KLoseToClient; KTimeout; KToServer None None; KToClient; KToServer (Some 2) (Some [97; 98])]))) /\
  cup (wc k) = true /\ cmsg (wc k) = None /\ cpend (wc k) = [] /\ spend (ws k) = [].
Proof. eexists. split; [vm_compute; reflexivity|]. split; [|repeat split]. intros d H. vm_compute in H. intuition discriminate. Qed.

Print Assumptions carrier_input_partial.
Print Assumptions carrier_typed_partial.
Print Assumptions carrier_output_partial.
Print Assumptions carrier_once_partial.
Print Assumptions carrier_start_refuted.
Print Assumptions carrier_output_refuted.
Print Assumptions carrier_input_refuted.

(** How long a silent station is asked: a command is repeated at most four
    times; the next expiry of the timer ends the session, and after that the
    client does nothing any more. *)
Definition since1 (n : Z) (e : kout) : Z := match e with OPoll _ => 0 | ORepoll => n + 1 | _ => n end.
Definition since (o : list kout) : Z := fold_left since1 o 0.
Definition of_client (e : kout) : bool := match e with OPost _ | OPoll _ | ORepoll | OData _ | ODisc => true | _ => false end.
Definition tries (n : Z) (c : client) : Prop :=
  cup c = true -> match cmsg c with Some _ => n = 5 - cretries c /\ 1 <= cretries c <= 5 | None => 2 <= cretries c end.
(* the client's part of a step, by the number of repetitions before *)
Definition fair (n : Z) (c c2 : client) (o : list kout) : Prop :=
  tries (fold_left since1 o n) c2 /\ 0 <= fold_left since1 o n <= 4 /\
  (cup c2 = false -> existsb of_client o = false \/ exists a, o = a ++ [ODisc] /\ fold_left since1 a n = 4 /\ ~ In ODisc a) /\
  (cup c2 = true -> ~ In ODisc o) /\ (cup c = false -> c2 = c /\ o = []).
Lemma fair_poll : forall size n c c2 f o, 0 <= n <= 4 -> cup c = true -> match cmsg c with Some _ => n = 4 - cretries c /\ 1 <= cretries c <= 4 | None => True end -> sendpoll size c = (c2, f, o) ->
  tries (fold_left since1 o n) c2 /\ 0 <= fold_left since1 o n <= 4 /\ cup c2 = true /\ ~ In ODisc o.
Proof.
  intros size n c c2 f o N U M E. unfold sendpoll in E. cbn zeta in E. destruct (cmsg c) as [q|] eqn:Q; injection E as <- <- <- ; cbn [fold_left since1].
  - split; [intros _; rewrite Q; lia|]. split; [lia|]. split; [exact U|]. intros [F|[]]. discriminate.
  - split; [intros _; cbn [cmsg cretries]; lia|]. split; [lia|]. split; [exact U|]. intros [F|[]]. discriminate.
Qed.
Lemma fair_again : forall size n c c2 fs o, 0 <= n <= 4 -> cup c = true -> tries n c -> again size c = (c2, fs, o) -> fair n c c2 o.
Proof.
  intros size n c c2 fs o N U T E. specialize (T U). unfold again in E. cbn zeta in E. destruct (cretries c - 1 =? 0) eqn:Z0.
  - destruct (cmsg c); [|lia]. injection E as <- <- <- . unfold fair. cbn [fold_left since1]. split; [intros F; discriminate|]. split; [lia|]. split; [|split; [discriminate|congruence]].
    intros _. right. exists []. split; [reflexivity|]. split; [cbn [fold_left]; lia|intros []].
  - match type of E with context [sendpoll size ?z] => destruct (sendpoll size z) as [[c3 f3] o3] eqn:P; apply (fair_poll size n) in P; [|exact N|exact U|cbn [cmsg cretries]; destruct (cmsg c); [lia|exact I]] end.
    injection E as <- <- <- . destruct P as (P1 & P2 & P3 & P4). split; [exact P1|]. split; [exact P2|]. split; [congruence|]. split; [auto|congruence].
Qed.
Lemma fair_step : forall size n k e k2 o, 0 <= n <= 4 -> tries n (wc k) -> kstep size k e = (k2, o) -> fair n (wc k) (wc k2) (filter of_client o).
Proof.
  intros size n [c s ts tc] e k2 o N T E. destruct e as [d| |w r| | | | ]; cbn [kstep wc ws to_s to_c] in *; cbn zeta in E.
  - destruct (c_post size c d) as [[c2 fs] o3] eqn:P. injection E as <- <- . cbn [wc]. unfold c_post in P. destruct (cup c) eqn:U; cbn [negb] in P.
    + specialize (T U). cbn zeta in P. destruct (match cpend c, cmsg c with [], None => false | _, _ => true end) eqn:B.
      * injection P as <- <- <- . cbn [filter of_client]. unfold fair. cbn [fold_left since1 cup]. split; [intros _; cbn [cmsg cretries]; exact T|]. split; [exact N|]. split; [discriminate|]. split; [intros _ [F|[]]; discriminate|congruence].
      * assert (CM : cmsg c = None) by (destruct (cpend c), (cmsg c); congruence). rewrite CM in *.
        match type of P with context [sendpoll size ?z] => destruct (sendpoll size z) as [[c3 f3] o4] eqn:Q end. injection P as <- <- <- .
        assert (O4 : filter of_client o4 = o4) by (unfold sendpoll in Q; cbn [cmsg] in Q; injection Q as <- <- <- ; reflexivity).
        apply (fair_poll size n) in Q; [|exact N|reflexivity|exact I]. destruct Q as (P1 & P2 & P3 & P4).
        cbn [filter of_client]. rewrite O4. unfold fair. cbn [fold_left since1]. split; [exact P1|]. split; [exact P2|]. split; [congruence|]. split; [intros _ [F|F]; [discriminate|contradiction]|congruence].
    + injection P as <- <- <- . cbn [filter]. unfold fair. cbn [fold_left]. split; [intros F; congruence|]. split; [exact N|]. split; [auto|]. split; [congruence|auto].
  - destruct (c_timeout size c) as [[c2 fs] o3] eqn:P. injection E as <- <- . cbn [wc]. unfold c_timeout in P. destruct (cup c) eqn:U; cbn [negb] in P.
    + assert (O3 : filter of_client o3 = o3).
      { unfold again in P. cbn zeta in P. destruct (_ =? 0); [injection P as <- <- <- ; reflexivity|]. unfold sendpoll in P. destruct (cmsg _); injection P as <- <- <- ; reflexivity. }
      rewrite O3. eapply fair_again; [exact N|exact U|exact T|exact P].
    + injection P as <- <- <- . cbn [filter]. unfold fair. cbn [fold_left]. split; [intros F; congruence|]. split; [exact N|]. split; [auto|]. split; [congruence|auto].
  - assert (NOP : forall o, filter of_client o = [] -> fair n c c (filter of_client o)).
    { intros o0 -> . unfold fair. cbn [fold_left]. split; [exact T|]. split; [exact N|]. split; [auto|]. split; [intros _ []|auto]. }
    destruct ts as [|f ts]; [injection E as <- <- ; apply NOP; reflexivity|]. destruct (s_command s f w r) as [[s2 fs] o3] eqn:P. injection E as <- <- . cbn [wc]. apply NOP.
    unfold s_command in P. cbn zeta in P. destruct (negb _); [injection P as <- <- <- ; reflexivity|]. destruct (_ =? _); [injection P as <- <- <- ; reflexivity|]. injection P as <- <- <- . destruct w; reflexivity.
  - destruct tc as [|f tc]. { injection E as <- <- . cbn [wc filter]. unfold fair. cbn [fold_left]. split; [exact T|]. split; [exact N|]. split; [auto|]. split; [intros _ []|auto]. }
    destruct (c_response size c f) as [[c2 fs] o3] eqn:P. injection E as <- <- . cbn [wc]. unfold c_response in P. destruct (cup c) eqn:U; cbn [negb] in P.
    + destruct (fst f =? cseq c).
      * cbn zeta in P. set (od := match snd f with [] => [] | _ => _ end) in *.
        assert (OD : filter of_client od = od /\ fold_left since1 od n = n /\ ~ In ODisc od) by (unfold od; destruct (snd f); repeat split; try reflexivity; cbn [In]; intros []; try discriminate; contradiction). destruct OD as (OD1 & OD2 & OD3). clearbody od.
        destruct (cpend c) as [|i l].
        { injection P as <- <- <- . rewrite OD1. unfold fair. rewrite OD2. split; [intros _; cbn [cmsg cretries]; lia|]. split; [exact N|]. cbn [cup]. split; [discriminate|]. split; [auto|congruence]. }
        match type of P with context [sendpoll size ?z] => destruct (sendpoll size z) as [[c3 f3] o4] eqn:Q end. injection P as <- <- <- .
        assert (O4 : filter of_client o4 = o4) by (unfold sendpoll in Q; cbn [cmsg] in Q; injection Q as <- <- <- ; reflexivity).
        apply (fair_poll size n) in Q; [|exact N|reflexivity|exact I]. destruct Q as (P1 & P2 & P3 & P4).
        rewrite filter_app, OD1, O4. unfold fair. rewrite fold_left_app, OD2. split; [exact P1|]. split; [exact P2|]. split; [congruence|]. split; [|congruence].
        intros _ F. apply in_app_or in F. destruct F; contradiction.
      * assert (O3 : filter of_client o3 = o3).
        { unfold again in P. cbn zeta in P. destruct (_ =? 0); [injection P as <- <- <- ; reflexivity|]. unfold sendpoll in P. destruct (cmsg _); injection P as <- <- <- ; reflexivity. }
        rewrite O3. eapply fair_again; [exact N|exact U|exact T|exact P].
    + injection P as <- <- <- . cbn [filter]. unfold fair. cbn [fold_left]. split; [intros F; congruence|]. split; [exact N|]. split; [auto|]. split; [congruence|auto].
  - injection E as <- <- . cbn [wc filter]. unfold fair. cbn [fold_left]. split; [exact T|]. split; [exact N|]. split; [auto|]. split; [intros _ []|auto].
  - injection E as <- <- . cbn [wc filter]. unfold fair. cbn [fold_left]. split; [exact T|]. split; [exact N|]. split; [auto|]. split; [intros _ []|auto].
  - injection E as <- <- . cbn [wc filter]. unfold fair. cbn [fold_left]. split; [exact T|]. split; [exact N|]. split; [auto|]. split; [intros _ []|auto].
Qed.
Lemma since_filter : forall o n, fold_left since1 (filter of_client o) n = fold_left since1 o n.
Proof. induction o as [|e o IH]; intros n; [reflexivity|]. destruct e; cbn [filter of_client fold_left since1]; apply IH. Qed.
Lemma down_silent : forall size l k k2 o, cup (wc k) = false -> krun size k l = (k2, o) -> filter of_client o = [] /\ cup (wc k2) = false.
Proof.
  intros size. induction l as [|e t IH]; intros k k2 o U E; cbn [krun] in E; [injection E as <- <- ; auto|].
  destruct (kstep size k e) as [k1 o1] eqn:E1. destruct (krun size k1 t) as [k3 o3] eqn:E2. injection E as <- <- .
  assert (F := fair_step size 0 k e k1 o1 ltac:(lia) ltac:(intros F; congruence) E1). destruct F as (_ & _ & _ & _ & F). destruct (F U) as [A B]. rewrite filter_app, B. eapply IH; [|exact E2]. congruence.
Qed.
Lemma fair_run : forall size l n k k2 o, 0 <= n <= 4 -> cup (wc k) = true -> tries n (wc k) -> krun size k l = (k2, o) ->
  0 <= fold_left since1 o n <= 4 /\ tries (fold_left since1 o n) (wc k2) /\
  (cup (wc k2) = true -> ~ In ODisc o) /\
  (forall a b, filter of_client o = a ++ ODisc :: b -> fold_left since1 a n = 4 /\ b = []).
Proof.
  intros size. induction l as [|e t IH]; intros n k k2 o N U T E; cbn [krun] in E.
  { injection E as <- <- . cbn [fold_left filter]. split; [exact N|]. split; [exact T|]. split; [intros _ []|]. intros a b H. destruct a; discriminate. }
  destruct (kstep size k e) as [k1 o1] eqn:E1. destruct (krun size k1 t) as [k3 o3] eqn:E2. injection E as <- <- .
  destruct (fair_step size n k e k1 o1 N T E1) as (F1 & F2 & F3 & F4 & _). rewrite since_filter in *.
  rewrite fold_left_app, filter_app.
  assert (INF : forall o, In ODisc o <-> In ODisc (filter of_client o)) by (intros o0; rewrite filter_In; split; [auto|intros [H _]; exact H]).
  destruct (cup (wc k1)) eqn:U1.
  - destruct (IH _ _ _ _ F2 U1 F1 E2) as (G1 & G2 & G3 & G4). specialize (F4 eq_refl). split; [exact G1|]. split; [exact G2|]. split.
    + intros U2 H. apply in_app_or in H. destruct H as [H|H]; [apply INF in H; contradiction|apply (G3 U2 H)].
    + intros a b H.
      assert (Q : exists a2, a = filter of_client o1 ++ a2 /\ filter of_client o3 = a2 ++ ODisc :: b).
      { clear - H F4. revert a H. induction (filter of_client o1) as [|x p IHp]; intros a H; cbn [app] in *; [exists a; auto|].
        destruct a as [|y a]; cbn [app] in H; injection H as Hx H; [exfalso; apply F4; left; exact Hx|]. subst y.
        destruct (IHp ltac:(intros Z; apply F4; right; exact Z) a H) as (a2 & -> & A). exists a2. auto. }
      destruct Q as (a2 & -> & A). rewrite fold_left_app, since_filter. apply G4. exact A.
  - destruct (down_silent _ _ _ _ _ U1 E2) as [S1 S2]. rewrite S1, app_nil_r.
    assert (SS : fold_left since1 o3 (fold_left since1 o1 n) = fold_left since1 o1 n) by (rewrite <- (since_filter o3), S1; reflexivity). rewrite SS.
    split; [exact F2|]. split; [intros X; congruence|]. split; [congruence|].
    intros a b H. destruct (F3 eq_refl) as [X|(a2 & A1 & A2 & A3)].
    + exfalso. assert (existsb of_client (filter of_client o1) = true) by (apply existsb_exists; exists ODisc; split; [rewrite H; apply in_or_app; right; left; reflexivity|reflexivity]). congruence.
    + rewrite A1 in H.
      assert (Q : forall p a b, p ++ [ODisc] = a ++ ODisc :: b -> ~ In ODisc p -> a = p /\ b = []).
      { clear. induction p as [|y p IHa]; intros a b H A3; destruct a as [|x a]; cbn [app] in H.
        - injection H as <- . auto.
        - injection H as _ H. destruct a; discriminate.
        - injection H as -> H. exfalso. apply A3. left. reflexivity.
        - injection H as -> H. destruct (IHa a b H ltac:(intros Z; apply A3; right; exact Z)) as [-> -> ]. auto. }
      destruct (Q _ _ _ H A3) as [-> -> ]. auto.
Qed.
Theorem carrier_gives_up : forall size l k o, carrier size l = (k, o) ->
  since o <= 4 /\
  (forall a b, o = a ++ ODisc :: b -> since a = 4 /\ forall e, In e b -> of_client e = false) /\
  (cup (wc k) = true -> cmsg (wc k) <> None -> snd (kstep size k KTimeout) = if since o =? 4 then [ODisc] else [ORepoll]).
Proof.
  intros size l k o E. unfold carrier, sendpoll in E. cbn [client0 cmsg cseq cpend cup] in E. change (Z.lxor 0 1) with 1 in E. unfold upto, from in E. rewrite firstn_nil, skipn_nil in E.
  match type of E with context [krun size ?z l] => set (k0 := z) in * end. destruct (krun size k0 l) as [k3 o3] eqn:E2. injection E as <- <- .
  destruct (fair_run size l 0 k0 k3 o3 ltac:(lia) eq_refl ltac:(intros _; cbn; lia) E2) as (G1 & G2 & G3 & G4).
  unfold since. cbn [app fold_left since1]. split; [lia|]. split.
  - intros a b H. destruct a as [|x a]; [discriminate|]. injection H as <- H. cbn [fold_left since1].
    assert (FO : filter of_client o3 = filter of_client a ++ ODisc :: filter of_client b) by (rewrite H, filter_app; reflexivity).
    destruct (G4 _ _ FO) as [A B]. rewrite since_filter in A. split; [exact A|]. intros e IN. destruct (of_client e) eqn:Q; [|reflexivity].
    assert (In e (filter of_client b)) by (apply filter_In; auto). rewrite B in *. contradiction.
  - intros U M. specialize (G2 U). cbn [kstep]. unfold c_timeout. rewrite U. cbn [negb]. unfold again. cbn zeta. destruct (cmsg (wc k3)) as [q|] eqn:Q; [|contradiction].
    replace (cretries (wc k3) - 1 =? 0) with (fold_left since1 o3 0 =? 4) by lia. destruct (_ =? 4); [reflexivity|].
    unfold sendpoll. cbn [cmsg]. reflexivity.
Qed.
(** When the reservation has ended the station takes no input and gives no
    output any more. *)
Theorem carrier_released : forall size k l k2 o, krun size k (KRelease :: l) = (k2, o) -> handled o = [] /\ reads o = [] /\ written o = [].
Proof.
  intros size k l k2 o E. cbn [krun kstep] in E. match type of E with context [krun size ?z l] => set (k0 := z) in *; assert (U : sup (ws k0) = false) by reflexivity; clearbody k0 end.
  destruct (krun size k0 l) as [k3 o3] eqn:E2. injection E as <- <- . cbn [app]. clear k. revert k0 U o3 k3 E2.
  induction l as [|e t IH]; intros k U o k2 E; cbn [krun] in E; [injection E as <- <- ; auto|].
  destruct (kstep size k e) as [k1 o1] eqn:E1. destruct (krun size k1 t) as [k3 o3] eqn:E2. injection E as <- <- .
  assert (S1 : sup (ws k1) = false /\ filter (fun e => negb (of_client e)) o1 = []).
  { assert (PL : forall c c2 f o, sendpoll size c = (c2, f, o) -> filter (fun e => negb (of_client e)) o = []) by (intros c c2 f o0 H; unfold sendpoll in H; cbn zeta in H; destruct (cmsg c); injection H as <- <- <- ; reflexivity).
    assert (AG : forall c c2 f o, again size c = (c2, f, o) -> filter (fun e => negb (of_client e)) o = []).
    { intros c c2 f o0 H. unfold again in H. cbn zeta in H. destruct (_ =? 0); [injection H as <- <- <- ; reflexivity|]. destruct (sendpoll _ _) as [[c3 f3] o4] eqn:P. injection H as <- <- <- . eapply PL. exact P. }
    destruct k as [c s ts tc]. cbn [ws] in U. destruct e as [d| |w r| | | | ]; cbn [kstep wc ws to_s to_c] in E1; cbn zeta in E1.
    - destruct (c_post size c d) as [[c2 fs] o4] eqn:P. injection E1 as <- <- . cbn [ws]. split; [exact U|]. unfold c_post in P. destruct (negb _); [injection P as <- <- <- ; reflexivity|].
      cbn zeta in P. destruct (match cpend c, cmsg c with [], None => false | _, _ => true end); [injection P as <- <- <- ; reflexivity|]. destruct (sendpoll _ _) as [[c3 f3] o5] eqn:Q. injection P as <- <- <- . cbn [filter of_client negb]. eapply PL. exact Q.
    - destruct (c_timeout size c) as [[c2 fs] o4] eqn:P. injection E1 as <- <- . cbn [ws]. split; [exact U|]. unfold c_timeout in P. destruct (negb _); [injection P as <- <- <- ; reflexivity|]. eapply AG. exact P.
    - destruct ts as [|f ts]; [injection E1 as <- <- ; auto|]. destruct (s_command s f w r) as [[s2 fs] o4] eqn:P. injection E1 as <- <- . cbn [ws]. unfold s_command in P. rewrite U in P. cbn [negb] in P. injection P as <- <- <- . auto.
    - destruct tc as [|f tc]; [injection E1 as <- <- ; auto|]. destruct (c_response size c f) as [[c2 fs] o4] eqn:P. injection E1 as <- <- . cbn [ws]. split; [exact U|]. unfold c_response in P. destruct (negb _); [injection P as <- <- <- ; reflexivity|].
      destruct (_ =? _); [|eapply AG; exact P]. cbn zeta in P. set (od := match snd f with [] => [] | _ => _ end) in *.
      assert (OD : filter (fun e => negb (of_client e)) od = []) by (unfold od; destruct (snd f); reflexivity). clearbody od.
      destruct (cpend c); [injection P as <- <- <- ; exact OD|]. destruct (sendpoll _ _) as [[c3 f3] o5] eqn:Q. injection P as <- <- <- . rewrite filter_app, OD. eapply PL. exact Q.
    - injection E1 as <- <- . auto.
    - injection E1 as <- <- . auto.
    - injection E1 as <- <- . auto. }
  destruct S1 as [U1 S1]. specialize (IH _ U1 _ _ E2). rewrite handled_app, reads_app. destruct IH as (I1 & I2 & I3).
  assert (Q : handled o1 = [] /\ reads o1 = [] /\ written (o1 ++ o3) = written o3).
  { clear - S1. induction o1 as [|x o1 IHo]; [auto|]. cbn [filter] in S1. destruct x; cbn [of_client negb] in S1; try discriminate; cbn [handled reads app written]; auto. }
  destruct Q as (Q1 & Q2 & Q3). rewrite Q1, Q2, Q3, I1, I2. auto.
Qed.
Example carrier_gives_up_example : exists k, carrier 80 [KTimeout; KTimeout; KTimeout; KTimeout; KTimeout; KTimeout] = (k, [OPoll []; ORepoll; ORepoll; ORepoll; ORepoll; ODisc]).
Proof. eexists. vm_compute. reflexivity. Qed.
Print Assumptions carrier_gives_up.
Print Assumptions carrier_released.
