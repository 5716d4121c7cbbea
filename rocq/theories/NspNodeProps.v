(** C37: the life of connections. *)
From Coq Require Import Permutation.
From Verif Require Import Base Dict ModuloModel NspPktModel NspModel NspFrame NspPrim NspRx NspPktProps NspIdModel NspIdProps NspNodeModel.

(** * Specification *)
(** The connections that exist and are not closed. *)
Definition live (s : nnode) (o : nat) (c : conn) : Prop := nth_error (heap s) o = Some c /\ cst c <> Sclosed.
Definition gone (s : nnode) (o : nat) (c : conn) : Prop := nth_error (heap s) o = Some c /\ cst c = Sclosed.
Definition nev_ok (e : nev) : Prop := match e with EPkt _ _ b => bytes_ok b | _ => True end.
Inductive nreach (cfg : nodecfg) : nnode -> Prop :=
  | nr_init : forall f, initial (maxconns cfg) f -> nreach cfg (mk_nnode [] [] [] f [])
  | nr_step : forall s e s', nreach cfg s -> nev_ok e -> nstep cfg s e = Ok s' -> nreach cfg s'.
Definition nodecfg_ok (cfg : nodecfg) : Prop := 1 <= phase (nconn cfg) /\ permitted (maxconns cfg).
Definition raises (l : list out) : Prop := Forall (fun x => exists e, x = ORaise e) l.

(** * Connections *)
Definition quiet (c : conn) : Prop := ctimer c = false /\ forall ch, pending (getc c ch) = [] /\ hold (getc c ch) = false.
Lemma close_quiet : forall c, quiet (conn_close c).
Proof. intros c. split; [reflexivity|]. intros []; split; reflexivity. Qed.
Lemma closed_step : forall cfg c e c', cst c = Sclosed -> quiet c -> (forall p, e <> VRecv p) -> cstep cfg c e = Ok c' ->
  cst c' = Sclosed /\ quiet c' /\ csrc c' = csrc c /\ cdest c' = cdest c /\ exists l, clog c' = clog c ++ l /\ raises l.
Proof.
  intros cfg c e c' S [Q1 Q2] NR H.
  assert (R : forall x, c' = emit c (ORaise x) -> cst c' = Sclosed /\ quiet c' /\ csrc c' = csrc c /\ cdest c' = cdest c /\ exists l, clog c' = clog c ++ l /\ raises l).
  { intros x ->. repeat (split; [first [assumption|reflexivity|split; [assumption|intros []; [apply (Q2 CD)|apply (Q2 CO)]]]|]). exists [ORaise x]. split; [reflexivity|repeat constructor; eauto]. }
  assert (K : c' = c -> cst c' = Sclosed /\ quiet c' /\ csrc c' = csrc c /\ cdest c' = cdest c /\ exists l, clog c' = clog c ++ l /\ raises l).
  { intros ->. split; [exact S|]. split; [split; assumption|]. repeat (split; [reflexivity|]). exists []. rewrite app_nil_r. split; [reflexivity|constructor]. }
  destruct e; cbn [cstep] in H.
  - destruct (NR p eq_refl).
  - unfold conn_accept in H. rewrite S in H. injection H as <-. eapply R; reflexivity.
  - unfold conn_reject in H. rewrite S in H. injection H as <-. eapply R; reflexivity.
  - unfold conn_disconnect in H. rewrite S in H. injection H as <-. eapply R; reflexivity.
  - unfold conn_abort in H. rewrite S in H. injection H as <-. eapply R; reflexivity.
  - unfold conn_send in H. rewrite S in H. injection H as <-. eapply R; reflexivity.
  - unfold conn_interrupt in H. rewrite S in H. injection H as <-. eapply R; reflexivity.
  - injection H as <-. split; [exact S|]. split; [split; [exact Q1|intros []; [apply (Q2 CD)|apply (Q2 CO)]]|]. repeat (split; [reflexivity|]). exists []. rewrite app_nil_r. split; [reflexivity|constructor].
  - unfold conn_timeout in H. rewrite Q1 in H. injection H as <-. now apply K.
  - unfold holdoff in H. rewrite (proj2 (Q2 ch)) in H. injection H as <-. now apply K.
  - unfold retransmit in H. rewrite (proj1 (Q2 ch)) in H. destruct i; injection H as <-; now apply K.
Qed.
Lemma disc_st : forall cfg c r x c1, disc_rej cfg c r x = Ok c1 -> cst c1 = cst c.
Proof. intros cfg c r x c1 H. unfold disc_rej in H. destruct (_ || _ || _); [discriminate|]. apply data_send_frame in H. rewrite (fr_st _ _ H). reflexivity. Qed.
Lemma api_disc_st : forall cfg c r x c1, api_disc cfg c r x = Ok c1 -> cst c1 = cst c.
Proof.
  intros cfg c r x c1 H. unfold api_disc in H. destruct (disc_rej cfg c r x) as [c2|er] eqn:E; [injection H as <-; eapply disc_st; exact E|].
  destruct er; try discriminate H. injection H as <-. reflexivity.
Qed.
Lemma run_quiet : forall cfg c p c', cst c = Srun -> run_recv cfg c p = Ok c' -> cst c' = Sclosed -> quiet c'.
Proof.
  intros cfg c p c' R H X. unfold run_recv in H. set (c0 := if 2 <? cphase c then set_ctimer c true else c) in *.
  assert (R0 : cst c0 = Srun) by (unfold c0; destruct (2 <? cphase c); exact R). clearbody c0.
  assert (G : forall ch q, chan_of q = ch -> is_ackhdr q = true -> sub_recv cfg c0 ch q = Ok c' -> quiet c').
  { intros ch q C A HH. destruct (sub_recv_star cfg (Some (ch, q)) false c0 ch q c' (or_introl R0) eq_refl C A HH) as [_ [Y|Y]]; congruence. }
  destruct p; try (injection H as <-; congruence); try (eapply G; [| |exact H]; reflexivity).
  - destruct (2 <? cphase c0); [apply send_ack_frame in H; rewrite (fr_st _ _ H) in X; congruence|injection H as <-; congruence].
  - destruct (sendmsg _ _ _); cbn [bind] in H; [|discriminate]. injection H as <-. apply close_quiet.
  - injection H as <-. apply close_quiet.
Qed.
Lemma cd_quiet : forall cfg c p c', cst c <> Sclosed -> cd_recv cfg c p = Ok c' -> cst c' = Sclosed -> quiet c'.
Proof.
  intros cfg c p c' R H X. destruct p; cbn [cd_recv] in H; try (injection H as <-; congruence).
  - destruct (chan_ack _ _ _) as [c1|]; cbn [bind] in H; [|discriminate]. destruct (if 2 <? cphase c1 then _ else _) as [c2|]; cbn [bind] in H; [|discriminate].
    injection H as <-. discriminate X.
  - destruct (sendmsg _ _ _); cbn [bind] in H; [|discriminate]. injection H as <-. apply close_quiet.
  - injection H as <-. apply close_quiet.
Qed.
Lemma reject_st : forall cfg c r x c1, cst c = Scr -> conn_reject cfg c r x = Ok c1 -> cst c1 = Sdi.
Proof. intros cfg c r x c1 S H. unfold conn_reject in H. rewrite S in H. cbn [cstate_eqb negb] in H. apply api_disc_st in H. exact H. Qed.
Lemma keep_st : forall c f c', (let* n := f in let* (c1, _) := other_send (set_coth c (set_seqnum (coth c) n)) (NLs (cdst c) (csrc c) None None (seqnum (coth c)) 0 0 0) in Ok c1) = Ok c' -> cst c' = cst c.
Proof.
  intros c f c' H. destruct f as [n|]; cbn [bind] in H; [|discriminate]. destruct (other_send _ _) as [[c1 b]|] eqn:E; cbn [bind] in H; [|discriminate]. injection H as <-. apply other_send_frame in E. rewrite (fr_st _ _ E). reflexivity.
Qed.
Lemma step_quiet : forall cfg c e c', cst c <> Sclosed -> cstep cfg c e = Ok c' -> cst c' = Sclosed -> quiet c'.
Proof.
  intros cfg c e c' N H X.
  assert (FR : frame c c' -> quiet c') by (intros F; rewrite (fr_st _ _ F) in X; congruence).
  destruct e; cbn [cstep] in H.
  - unfold conn_recv in H. destruct (cst c) eqn:S; try congruence.
    + unfold ci_recv in H. destruct p; try (eapply cd_quiet; [|exact H|exact X]; congruence).
      * destruct (2 <? phase cfg); [|eapply cd_quiet; [|exact H|exact X]; congruence]. destruct (chan_ack c CD 0); cbn [bind] in H; [|discriminate]. injection H as <-. discriminate X.
      * injection H as <-. apply close_quiet.
    + eapply cd_quiet; [|exact H|exact X]; congruence.
    + unfold cr_recv in H. destruct p; try (injection H as <-; congruence). destruct (2 <? cphase c); [|injection H as <-; congruence]. apply FR. eapply sendmsg_frame. exact H.
    + unfold cc_recv in H. destruct (if is_ackhdr p then _ else _) as [c1|]; cbn [bind] in H; [|discriminate]. eapply run_quiet; [|exact H|exact X]. reflexivity.
    + eapply run_quiet; eauto.
    + unfold di_recv in H. destruct p; try (injection H as <-; congruence); [|injection H as <-; apply close_quiet].
      destruct (sendmsg _ _ _); cbn [bind] in H; [|discriminate]. injection H as <-. apply close_quiet.
  - unfold conn_accept in H. destruct (cst c) eqn:S; cbn [cstate_eqb negb] in H; try (injection H as <-; cbn [cst emit set_clog set_cdisc set_cshut putc set_cdata set_coth] in X; congruence).
    destruct (cphase c =? 2); [apply sendmsg_frame in H|apply data_send_frame in H]; rewrite (fr_st _ _ H) in X; discriminate X.
  - unfold conn_reject in H. destruct (cst c) eqn:S; cbn [cstate_eqb negb] in H; try (injection H as <-; cbn [cst emit set_clog set_cdisc set_cshut putc set_cdata set_coth] in X; congruence). apply api_disc_st in H. rewrite H in X. discriminate X.
  - unfold conn_disconnect in H. destruct (cst c) eqn:S; cbn [cstate_eqb negb] in H; try (injection H as <-; cbn [cst emit set_clog set_cdisc set_cshut putc set_cdata set_coth] in X; congruence).
    destruct (pending (cdata c)); [apply api_disc_st in H; rewrite H in X; discriminate X|injection H as <-; cbn [cst emit set_clog set_cdisc set_cshut putc set_cdata set_coth] in X; congruence].
  - unfold conn_abort in H. destruct (cst c) eqn:S; cbn [cstate_eqb negb] in H; try (injection H as <-; cbn [cst emit set_clog set_cdisc set_cshut putc set_cdata set_coth] in X; congruence).
    destruct (disc_rej cfg c r x) as [c1|er]; [injection H as <-; discriminate X|]. destruct er; try discriminate H. injection H as <-; cbn [cst emit set_clog set_cdisc set_cshut putc set_cdata set_coth] in X; congruence.
  - unfold conn_send in H. destruct (_ || _); [injection H as <-; cbn [cst emit set_clog set_cdisc set_cshut putc set_cdata set_coth] in X; congruence|]. destruct (csegsize c =? 0); [discriminate|]. apply send_segs_frame in H. rewrite (fr_st _ _ H) in X. cbn [cst emit set_clog set_coth set_cdata set_seqnum set_crsts] in X. congruence.
  - unfold conn_interrupt in H. destruct (_ || _); [injection H as <-; cbn [cst emit set_clog set_cdisc set_cshut putc set_cdata set_coth] in X; congruence|]. destruct (16 <? zlen data); [injection H as <-; cbn [cst emit set_clog set_cdisc set_cshut putc set_cdata set_coth] in X; congruence|].
    destruct (other_send _ _) as [[c1 b]|] eqn:E; cbn [bind] in H; [|discriminate]. apply other_send_frame in E. destruct b; [|injection H as <-; rewrite (fr_st _ _ E) in X; congruence].
    destruct (mod_add 4096 (seqnum (coth c1)) 1); cbn [bind] in H; [|discriminate]. injection H as <-. cbn in X. rewrite (fr_st _ _ E) in X. congruence.
  - injection H as <-. cbn [cst emit set_clog set_coth set_cdata set_seqnum set_crsts] in X. congruence.
  - unfold conn_timeout in H. destruct (negb (ctimer c)); [injection H as <-; congruence|]. pose proof (eq_refl : cst (set_ctimer c false) = cst c) as S0. revert S0 H. generalize (set_ctimer c false) as c0. intros c0 S0 H.
    destruct (cst c0) eqn:S.
    + injection H as <-. apply close_quiet.
    + injection H as <-. apply close_quiet.
    + destruct (conn_reject cfg c0 OBJ_FAIL []) as [c1|] eqn:E; cbn [bind] in H; [|discriminate]. injection H as <-. apply reject_st in E; [|exact S]. cbn [to_sc emit set_clog cst] in X. congruence.
    + eapply keep_st in H. congruence.
    + eapply keep_st in H. congruence.
    + injection H as <-. congruence.
    + discriminate.
  - unfold holdoff in H. destruct (hold (getc c ch)); [|injection H as <-; congruence]. apply send_ack_frame in H. rewrite (fr_st _ _ H) in X. destruct ch; cbn [cst emit set_clog set_cdisc set_cshut putc set_cdata set_coth] in X; congruence.
  - unfold retransmit in H. destruct (nth_error (pending (getc c ch)) i) as [e|]; [|injection H as <-; congruence]. destruct (negb (ttimer e)); [injection H as <-; congruence|].
    destruct (retransmits cfg <=? ttries e); [destruct (is_ci (tp e)); injection H as <-; [destruct ch; cbn [cst emit set_clog set_cdisc set_cshut putc set_cdata set_coth] in X; congruence|apply close_quiet]|].
    destruct (_ || _) in H; [apply tx_send_frame in H; rewrite (fr_st _ _ H) in X; destruct ch; cbn [cst emit set_clog set_cdisc set_cshut putc set_cdata set_coth] in X; congruence|injection H as <-; destruct ch; cbn [cst emit set_clog set_cdisc set_cshut putc set_cdata set_coth] in X; congruence].
Qed.
Lemma prim_ids : forall cfg a b l c c', prim cfg a b l c c' -> csrc c' = csrc c /\ cdest c' = cdest c.
Proof.
  intros cfg a b l c c' H.
  assert (FR : forall x y, frame x y -> csrc y = csrc x /\ cdest y = cdest x) by (intros x y F; split; [apply (fr_src _ _ F)|apply (fr_dest _ _ F)]).
  assert (DR : forall x r y z, disc_rej cfg x r y = Ok z -> csrc z = csrc x /\ cdest z = cdest x).
  { intros x r y z D. unfold disc_rej in D. destruct (_ || _ || _); [discriminate|]. apply data_send_frame in D. exact (FR _ _ D). }
  assert (TS : forall x p r, csrc (to_sc x p r) = csrc x /\ cdest (to_sc x p r) = cdest x).
  { intros x p r. destruct p; try (split; reflexivity). cbn [to_sc]. destruct (casm x); cbn [cst]; repeat match goal with |- context [if ?q then _ else _] => destruct q end; split; reflexivity. }
  assert (CR : forall x p, csrc (credit x p) = csrc x /\ cdest (credit x p) = cdest x).
  { intros x p. unfold credit, other_ls. destruct p; try (split; reflexivity). repeat match goal with |- context [match ?q with _ => _ end] => destruct q end; split; reflexivity. }
  assert (AC : forall x ch n p, csrc (acc x ch n p) = csrc x /\ cdest (acc x ch n p) = cdest x).
  { intros x ch n p. unfold acc. destruct ch; [|destruct (is_ls p)].
    - match goal with |- context [to_sc ?y _ _] => destruct (TS y p false) as [-> -> ] end. split; reflexivity.
    - match goal with |- context [credit ?y _] => destruct (CR y p) as [-> -> ] end. split; reflexivity.
    - match goal with |- context [to_sc ?y _ _] => destruct (TS y p false) as [-> -> ] end. split; reflexivity. }
  inversion H; subst; try (split; reflexivity); try (destruct ch; split; reflexivity); try (destruct (chan_of p); split; reflexivity).
  - split; [apply (sc_src _ _ H0)|apply (sc_dest _ _ H0)].
  - apply data_send_frame in H1. exact (FR _ _ H1).
  - exact (DR _ _ _ _ H1).
  - apply sendmsg_frame in H3. auto.
  - apply send_ack_frame in H0. auto.
  - apply tx_send_frame in H4. apply bump_frame in H5. pose proof (frame_trans _ _ _ H4 H5). auto.
  - apply tx_send_frame in H3. auto.
  - apply bump_frame in H3. auto.
  - apply other_send_frame in H0. exact (FR _ _ H0).
  - apply other_send_frame in H2. exact (FR _ _ H2).
  - apply chan_ack_frame in H0. auto.
  - apply chan_ack_frame in H1. auto.
  - apply AC.
  - match goal with |- context [acc ?y _ _ _] => destruct (AC y ch num q) as [-> -> ] end. destruct ch; split; reflexivity.
  - apply tx_send_frame in H4. destruct (FR _ _ H4) as [-> -> ]. destruct ch; split; reflexivity.
Qed.
Lemma step_ids : forall cfg c e c', 1 <= phase cfg -> ev_ok e -> cstep cfg c e = Ok c' -> csrc c' = csrc c /\ cdest c' = cdest c.
Proof.
  intros cfg c e c' PH EO H. destruct (is_send e) eqn:S.
  - destruct e; try discriminate S. cbn [cstep] in H. unfold conn_send in H. destruct (_ || _) in H; [injection H as <-; split; reflexivity|].
    destruct (csegsize c =? 0); [discriminate|]. apply send_segs_frame in H. split; [apply (fr_src _ _ H)|apply (fr_dest _ _ H)].
  - apply (step_star cfg (ev_arr e) false) in H; auto. 
    apply (star_inv cfg (ev_arr e) false (fun x => csrc x = csrc c /\ cdest x = cdest c)) in H; [exact H| |split; reflexivity].
    intros l a b P [<- <- ]. eapply prim_ids. exact P.
Qed.
Lemma outbound_new : forall cfg i d x c, conn_outbound cfg i d x = Ok c -> cst c = Sci /\ csrc c = i /\ cdest c = d /\ silent (clog c).
Proof.
  intros cfg i d x c H. unfold conn_outbound in H. destruct (data_send _ _ _) as [c1|] eqn:E; cbn [bind] in H; [|discriminate]. assert (c = set_ctimer c1 true) by congruence. subst c.
  apply data_send_frame in E. split; [exact (fr_st _ _ E)|]. split; [exact (fr_src _ _ E)|]. split; [exact (fr_dest _ _ E)|]. destruct (fr_log _ _ E) as (l & L & T). cbn [clog set_ctimer]. rewrite L. apply txonly_silent. exact T.
Qed.
Lemma inbound_new : forall cfg i d p c, conn_inbound cfg i d p = Ok c -> cst c = Scr /\ csrc c = i /\ cdest c = d /\ cdst c = src_of p /\ silent (clog c).
Proof.
  intros cfg i d p c H. unfold conn_inbound in H. destruct p as [| | | | | |r src fcopt info segsize payload| | | |]; try discriminate H.
  destruct (if 2 <? _ then _ else _) as [c1|] eqn:E; cbn [bind] in H; [|discriminate]. assert (c = set_ctimer (to_sc c1 (NCI r src fcopt info segsize payload) false) true) by congruence. subst c. cbn [to_sc emit set_clog set_ctimer cst csrc cdest cdst clog src_of].
  match type of E with (if ?b then _ else _) = _ => destruct b end.
  - unfold sendmsg in E. destruct (encode _); cbn [bind] in E; [|discriminate]. assert (c1 = emit (setphase cfg (mk_conn Scr i src d false (0, []) [] 0 (Z.min segsize MSS) false false (set_flow new_data fcopt) new_other []) info) (OTx (NAckConn src) no_tag)) by (injection E as <-; reflexivity). subst c1.
    do 4 (split; [reflexivity|]). split; [intros []|]; reflexivity.
  - injection E as <-. do 4 (split; [reflexivity|]). split; [intros []|]; reflexivity.
Qed.
(** The constructor does not fail for a packet that was decoded. *)
Lemma inbound_total : forall cfg i d p, in_range p -> is_ci p = true -> exists c, conn_inbound cfg i d p = Ok c.
Proof.
  intros cfg i d p R C. destruct p as [| | | | | |r src fcopt info segsize payload| | | |]; try discriminate C. cbn [in_range] in R. destruct R as (R & _). unfold conn_inbound. match goal with |- context [if ?b then sendmsg ?k ?q _ else _] => destruct b; cbn [bind]; [|eexists; reflexivity] end.
  unfold sendmsg. destruct (nsp_round_trip (NAckConn src)) as [E _]; [exact R|exact I|]. match goal with |- context [encode ?q] => change (encode q) with (encode (NAckConn src)) end. rewrite E. cbn [bind]. eexists. reflexivity.
Qed.

(** * The invariant *)
Definition closes (o : nat) (l : list nout) : nat := length (filter (fun x => match x with NClosed k => Nat.eqb k o | _ => false end) l).
Record NI (cfg : nodecfg) (s : nnode) : Prop := mk_NI {
  n_ids : NoDup (map (low (maxconns cfg + 1)) (dkeys (conns s) ++ free s));
  n_tab : forall i o, dget Z.eqb (conns s) i = Some o -> exists c, live s o c /\ csrc c = i;
  n_live : forall o c, live s o c -> dget Z.eqb (conns s) (csrc c) = Some o;
  n_gone : forall o c, gone s o c -> quiet c;
  n_cnt : forall o, closes o (nlog s) = match nth_error (heap s) o with Some c => if cstate_eqb (cst c) Sclosed then 1%nat else 0%nat | None => 0%nat end;
  n_rc : forall k o, dget key_eqb (rconns s) k = Some o -> (o < length (heap s))%nat }.
Lemma decides_key : decides key_eqb.
Proof. intros [a b] [c d]. unfold key_eqb. cbn [fst snd]. rewrite andb_true_iff, !Z.eqb_eq. split; [intros [-> -> ]; reflexivity|intros H; injection H as -> -> ; auto]. Qed.
Lemma st_eqb : forall a b, cstate_eqb a b = true <-> a = b.
Proof. intros [] []; cbn; split; congruence. Qed.
Lemma st_eqb_no : forall a b, a <> b -> cstate_eqb a b = false.
Proof. intros a b N. destruct (cstate_eqb a b) eqn:E; [apply st_eqb in E; contradiction|reflexivity]. Qed.
Lemma upd_other : forall A (l : list A) i j x, i <> j -> nth_error (upd i x l) j = nth_error l j.
Proof. induction l as [|y l IH]; intros [|i] [|j] x N; cbn [upd nth_error]; try reflexivity; try congruence. apply IH. congruence. Qed.
Lemma upd_length : forall A (l : list A) i x, length (upd i x l) = length l.
Proof. induction l as [|y l IH]; intros [|i] x; cbn [upd length]; auto. Qed.
Lemma closes_app : forall o a b, closes o (a ++ b) = (closes o a + closes o b)%nat.
Proof. intros. unfold closes. rewrite filter_app, app_length. reflexivity. Qed.
Lemma dset_new : forall (d : dict Z nat) k v, ~ In k (dkeys d) -> dkeys (dset Z.eqb d k v) = dkeys d ++ [k].
Proof.
  induction d as [|[k0 v0] d IH]; intros k v N; [reflexivity|]. cbn [dset dkeys map fst] in *. destruct (Z.eqb_spec k k0); [subst; destruct N; left; reflexivity|].
  cbn [map fst app]. f_equal. apply IH. intros X. apply N. right. exact X.
Qed.
Lemma ddel_none : forall (d : dict Z nat) k, ~ In k (dkeys d) -> ddel Z.eqb d k = d.
Proof.
  induction d as [|[k0 v0] d IH]; intros k N; [reflexivity|]. cbn [ddel dkeys map fst] in *. destruct (Z.eqb_spec k k0); [subst; destruct N; left; reflexivity|]. f_equal. apply IH. intros X. apply N. right. exact X.
Qed.
Lemma ddel_perm : forall (d : dict Z nat) k, NoDup (dkeys d) -> In k (dkeys d) -> Permutation (dkeys d) (k :: dkeys (ddel Z.eqb d k)).
Proof.
  induction d as [|[k0 v0] d IH]; intros k N H; [destruct H|]. cbn [dkeys map fst ddel] in *. inversion N; subst. destruct (Z.eqb_spec k k0).
  - subst. rewrite ddel_none by assumption. reflexivity.
  - destruct H as [H|H]; [congruence|]. cbn [map fst]. etransitivity; [apply perm_skip; apply (IH k); assumption|]. apply perm_swap.
Qed.

Lemma NI_upd : forall cfg s o c c1 rc, NI cfg s -> nth_error (heap s) o = Some c -> (cst c1 = Sclosed <-> cst c = Sclosed) -> csrc c1 = csrc c -> (cst c1 = Sclosed -> quiet c1) ->
  (forall k x, dget key_eqb rc k = Some x -> (x < length (heap s))%nat) -> NI cfg (set_heap (set_rconns s rc) (upd o c1 (heap s))).
Proof.
  intros cfg s o c c1 rc [I1 I2 I3 I4 I5 I6] N S C Q RC. constructor; cbn [heap conns rconns free nlog set_heap set_rconns].
  - exact I1.
  - intros i x H. destruct (I2 i x H) as (k & [K1 K2] & K3). destruct (Nat.eq_dec o x) as [-> |D].
    + assert (k = c) by congruence. subst k. exists c1. split; [split; [eapply upd_nth_same; exact N|tauto]|congruence].
    + exists k. split; [split; [cbn [heap set_heap]; now rewrite upd_other|exact K2]|exact K3].
  - intros x k [K1 K2]. cbn [heap set_heap] in K1. destruct (Nat.eq_dec o x) as [-> |D].
    + rewrite (upd_nth_same _ _ _ _ _ N) in K1. injection K1 as <-. rewrite C. apply I3. split; [exact N|tauto].
    + rewrite upd_other in K1 by assumption. apply I3. split; assumption.
  - intros x k [K1 K2]. cbn [heap set_heap] in K1. destruct (Nat.eq_dec o x) as [-> |D].
    + rewrite (upd_nth_same _ _ _ _ _ N) in K1. injection K1 as <-. apply Q. exact K2.
    + rewrite upd_other in K1 by assumption. apply (I4 x). split; assumption.
  - intros x. rewrite I5. destruct (Nat.eq_dec o x) as [-> |D].
    + rewrite (upd_nth_same _ _ _ _ _ N), N. destruct (cstate_eqb (cst c) Sclosed) eqn:E, (cstate_eqb (cst c1) Sclosed) eqn:F; try reflexivity; rewrite ?st_eqb in *; [apply S in E|apply S in F]; [rewrite E in F|rewrite F in E]; discriminate.
    + now rewrite upd_other.
  - intros k x H. rewrite upd_length. eauto.
Qed.
(** What an event at a connection may do to it. *)
Definition moves (c c1 : conn) : Prop := csrc c1 = csrc c /\ (cst c = Sclosed -> cst c1 = Sclosed /\ quiet c1) /\ (cst c <> Sclosed -> cst c1 = Sclosed -> quiet c1).
Lemma NI_settle : forall cfg s o c c1, nodecfg_ok cfg -> NI cfg s -> nth_error (heap s) o = Some c -> moves c c1 ->
  exists s', settle cfg s o c c1 = Ok s' /\ NI cfg s' /\ heap s' = upd o c1 (heap s) /\
    nlog s' = nlog s ++ (if negb (cstate_eqb (cst c) Sclosed) && cstate_eqb (cst c1) Sclosed then [NClosed o] else []).
Proof.
  intros cfg s o c c1 [PH PM] NI0 N (M1 & M2 & M3). unfold settle. cbn [conns set_heap].
  destruct (negb (cstate_eqb (cst c) Sclosed) && cstate_eqb (cst c1) Sclosed) eqn:E.
  - apply andb_true_iff in E as [E1 E2]. apply negb_true_iff in E1. assert (LV : cst c <> Sclosed) by (intros X; rewrite X in E1; discriminate). apply st_eqb in E2.
    destruct NI0 as [I1 I2 I3 I4 I5 I6]. rewrite M1. rewrite (I3 o c (conj N LV)). eexists. split; [reflexivity|].
    match goal with |- NI cfg (say (set_free ?t _) _) /\ _ => set (s1 := t) end.
    assert (H1 : heap s1 = upd o c1 (heap s) /\ conns s1 = ddel Z.eqb (conns s) (csrc c) /\ free s1 = free s /\ nlog s1 = nlog s /\ (forall k x, dget key_eqb (rconns s1) k = Some x -> dget key_eqb (rconns s) k = Some x)).
    { unfold s1. destruct (cdst c1 =? 0); cbn [heap conns free nlog rconns set_heap set_conns set_rconns]; (repeat (split; [reflexivity|])); intros k x H; [exact H|].
      rewrite !(dget_ddel key_eqb decides_key) in H. destruct (key_eqb k _); [discriminate|]. destruct (key_eqb k _); [discriminate|exact H]. }
    clearbody s1. destruct H1 as (H1 & H2 & H3 & H4 & H5). cbn [heap nlog say set_free free conns]. split; [|split; [exact H1|now rewrite H4]].
    assert (INK : In (csrc c) (dkeys (conns s))).
    { destruct (in_dec Z.eq_dec (csrc c) (dkeys (conns s))) as [|X]; [assumption|]. apply (dget_none Z.eqb decides_Z) in X. rewrite (I3 o c (conj N LV)) in X. discriminate. }
    constructor; cbn [heap conns rconns free nlog say set_free]; rewrite ?H1, ?H2, ?H3, ?H4.
    + assert (ND : NoDup (dkeys (conns s))) by (apply (nodup_map_inv _ _ (low (maxconns cfg + 1))); rewrite map_app in I1; apply NoDup_app_inv in I1; apply I1).
      unfold ret_id. rewrite land16. rewrite map_app in *. rewrite map_app. cbn [map]. rewrite low_ret by exact PM.
      eapply Permutation_NoDup; [|exact I1]. etransitivity; [apply Permutation_app_tail; apply Permutation_map; apply ddel_perm; [exact ND|exact INK]|]. cbn [map app].
      rewrite app_assoc. apply Permutation_cons_append.
    + intros i x H. rewrite (dget_ddel Z.eqb decides_Z) in H. destruct (Z.eqb_spec i (csrc c)); [discriminate|]. destruct (I2 i x H) as (k & [K1 K2] & K3).
      assert (o <> x) by (intros ->; congruence). exists k. split; [split; [cbn [heap say set_free]; rewrite H1, upd_other; assumption|exact K2]|exact K3].
    + intros x k [K1 K2]. cbn [heap say set_free] in K1. rewrite H1 in K1. destruct (Nat.eq_dec o x) as [-> |D].
      * rewrite (upd_nth_same _ _ _ _ _ N) in K1. congruence.
      * rewrite upd_other in K1 by assumption. rewrite (dget_ddel Z.eqb decides_Z). destruct (Z.eqb_spec (csrc k) (csrc c)) as [X|X]; [|apply I3; split; assumption].
        pose proof (I3 x k (conj K1 K2)) as Y. pose proof (I3 o c (conj N LV)) as Z1. rewrite X in Y. congruence.
    + intros x k [K1 K2]. cbn [heap say set_free] in K1. rewrite H1 in K1. destruct (Nat.eq_dec o x) as [-> |D].
      * rewrite (upd_nth_same _ _ _ _ _ N) in K1. injection K1 as <-. auto.
      * rewrite upd_other in K1 by assumption. apply (I4 x). split; assumption.
    + intros x. rewrite closes_app, I5. unfold closes at 1. cbn [filter]. destruct (Nat.eqb_spec o x) as [-> |D].
      * rewrite (upd_nth_same _ _ _ _ _ N), N, E2, (st_eqb_no _ _ LV). reflexivity.
      * rewrite upd_other by assumption. cbn [length]. lia.
    + intros k x H. rewrite upd_length. eapply I6. eapply H5. exact H.
  - eexists. split; [reflexivity|]. cbn [heap nlog set_heap]. split; [|split; [reflexivity|now rewrite app_nil_r]].
    apply (NI_upd cfg s o c c1 (rconns s)); auto.
    + split; intros X; [|apply M2; exact X]. destruct (cstate_eqb (cst c) Sclosed) eqn:F; [apply st_eqb; exact F|]. rewrite X in E. discriminate E.
    + intros X. destruct (cstate_eqb (cst c) Sclosed) eqn:F; [apply st_eqb in F; apply M2; exact F|]. rewrite X in E. discriminate E.
    + apply (n_rc _ _ NI0).
Qed.

(** * Steps *)
Inductive affects (cfg : nodecfg) (e : nev) (o : nat) (c c1 : conn) : Prop :=
  | Af_user : forall v, e = EUser o v -> (forall p, v <> VRecv p) -> cstep (nconn cfg) c v = Ok c1 -> affects cfg e o c c1
  | Af_pkt : forall src rts b p c0, e = EPkt src rts b -> decode b = Ok p -> in_range p -> cst c <> Sclosed ->
      (c0 = c \/ ((cst c = Sci \/ cst c = Scd) /\ cdst c = 0 /\ c0 = set_cdst c (src_of p))) ->
      (is_ci p = true \/ (dst_of p = csrc c /\ src = cdest c /\ (src_of p = cdst c0 \/ exists d, p = NAckConn d))) ->
      cstep (nconn cfg) c0 (VRecv p) = Ok c1 -> affects cfg e o c c1
  | Af_addr : forall src rts b p, e = EPkt src rts b -> decode b = Ok p -> cst c = Sci \/ cst c = Scd -> cdst c = 0 -> c1 = set_cdst c (src_of p) -> affects cfg e o c c1.
Inductive effect (cfg : nodecfg) (e : nev) (s s' : nnode) : Prop :=
  | Ef_none : heap s' = heap s -> nlog s' = nlog s \/ (exists x, nlog s' = nlog s ++ [x] /\ forall o, x <> NClosed o) -> effect cfg e s s'
  | Ef_new : forall c, heap s' = heap s ++ [c] -> cst c = Sci \/ cst c = Scr -> silent (clog c) -> nlog s' = nlog s -> effect cfg e s s'
  | Ef_at : forall o c c1, nth_error (heap s) o = Some c -> heap s' = upd o c1 (heap s) -> affects cfg e o c c1 ->
      (exists l, nlog s' = nlog s ++ l) -> effect cfg e s s'.
Lemma NI_new : forall cfg s c i f rc, NI cfg s -> free s = i :: f -> csrc c = i -> cst c <> Sclosed ->
  (forall k x, dget key_eqb rc k = Some x -> (x < length (heap s ++ [c]))%nat) ->
  NI cfg (mk_nnode (heap s ++ [c]) (dset Z.eqb (conns s) i (length (heap s))) rc f (nlog s)).
Proof.
  intros cfg s c i f rc [I1 I2 I3 I4 I5 I6] F C L RC.
  assert (OLD : forall x k, nth_error (heap s ++ [c]) x = Some k -> (x = length (heap s) /\ k = c) \/ nth_error (heap s) x = Some k).
  { intros x k H. destruct (lt_dec x (length (heap s))) as [X|X]; [right; rewrite nth_error_app1 in H; auto|]. rewrite nth_error_app2 in H by lia. left. destruct (x - length (heap s))%nat as [|n] eqn:E; [injection H as <-; split; [lia|reflexivity]|]. destruct n; discriminate H. }
  assert (OLD2 : forall x k, nth_error (heap s) x = Some k -> nth_error (heap s ++ [c]) x = Some k /\ x <> length (heap s)).
  { intros x k H. assert (x < length (heap s))%nat by (apply nth_error_Some; congruence). rewrite nth_error_app1 by assumption. split; [exact H|lia]. }
  assert (NK : ~ In i (dkeys (conns s))).
  { intros X. rewrite F, map_app in I1. cbn [map] in I1. apply NoDup_remove_2 in I1. apply I1. apply in_or_app. left. apply in_map. exact X. }
  constructor; cbn [heap conns rconns free nlog].
  - rewrite dset_new by exact NK. rewrite <- app_assoc. cbn [app]. rewrite <- F. exact I1.
  - intros j x H. rewrite (dget_dset Z.eqb decides_Z) in H. destruct (Z.eqb_spec j i) as [-> |D].
    + injection H as <-. exists c. split; [split; [cbn [heap]; rewrite nth_error_app2 by lia; rewrite Nat.sub_diag; reflexivity|exact L]|exact C].
    + destruct (I2 j x H) as (k & [K1 K2] & K3). exists k. split; [split; [apply OLD2; exact K1|exact K2]|exact K3].
  - intros x k [K1 K2]. rewrite (dget_dset Z.eqb decides_Z). destruct (OLD x k K1) as [[-> -> ]|K3]; [rewrite C, Z.eqb_refl; reflexivity|].
    destruct (Z.eqb_spec (csrc k) i) as [X|X]; [|apply I3; split; assumption]. destruct NK. rewrite <- X. pose proof (I3 x k (conj K3 K2)) as Y.
    destruct (in_dec Z.eq_dec (csrc k) (dkeys (conns s))) as [|Z1]; [assumption|]. apply (dget_none Z.eqb decides_Z) in Z1. congruence.
  - intros x k [K1 K2]. destruct (OLD x k K1) as [[-> -> ]|K3]; [congruence|]. apply (I4 x). split; assumption.
  - intros x. rewrite I5. destruct (nth_error (heap s) x) as [k|] eqn:K; [rewrite (proj1 (OLD2 x k K)); reflexivity|].
    destruct (nth_error (heap s ++ [c]) x) as [k|] eqn:K2; [|reflexivity]. destruct (OLD x k K2) as [[_ -> ]|K3]; [now rewrite (st_eqb_no _ _ L)|congruence].
  - exact RC.
Qed.
Lemma NI_heap : forall cfg s l, NI cfg s -> (forall o, ~ In (NClosed o) l) -> NI cfg (mk_nnode (heap s) (conns s) (rconns s) (free s) (nlog s ++ l)).
Proof.
  intros cfg s l [I1 I2 I3 I4 I5 I6] H. constructor; auto. intros o. cbn [nlog heap]. rewrite closes_app, I5.
  assert (closes o l = 0%nat) as ->; [|lia]. clear - H. induction l as [|x l IH]; [reflexivity|]. change (x :: l) with ([x] ++ l). rewrite closes_app, IH; [|intros k X; apply (H k); right; exact X].
  destruct x; try reflexivity. destruct (H o0). left. reflexivity.
Qed.
Lemma NI_leak : forall cfg s i f, NI cfg s -> free s = i :: f -> NI cfg (set_free s f).
Proof.
  intros cfg s i f [I1 I2 I3 I4 I5 I6] F. constructor; auto. cbn [conns set_free free]. rewrite F, map_app in I1. cbn [map] in I1. rewrite map_app. eapply NoDup_remove_1. exact I1.
Qed.
Lemma NI_say : forall cfg s x, NI cfg s -> (forall o, x <> NClosed o) -> NI cfg (say s x).
Proof. intros cfg s x N H. apply (NI_heap cfg s [x] N). intros o [X|[]]. exact (H o X). Qed.

Lemma at_conn_ok : forall cfg s o e s', nodecfg_ok cfg -> NI cfg s -> ev_ok e ->
  (forall p c, e = VRecv p -> nth_error (heap s) o = Some c -> cst c <> Sclosed) ->
  at_conn cfg s o e = Ok s' ->
  NI cfg s' /\ exists c c1, nth_error (heap s) o = Some c /\ cstep (nconn cfg) c e = Ok c1 /\ heap s' = upd o c1 (heap s) /\
    (exists l, nlog s' = nlog s ++ l).
Proof.
  intros cfg s o e s' OK NI0 EO LV H. unfold at_conn in H. destruct (nth_error (heap s) o) as [c|] eqn:N; [|discriminate]. destruct (cstep (nconn cfg) c e) as [c1|] eqn:E; cbn [bind] in H; [|discriminate].
  assert (M : moves c c1).
  { split; [apply (step_ids (nconn cfg) c e c1 (proj1 OK) EO E)|]. split.
    - intros S. assert (NR : forall p, e <> VRecv p) by (intros p ->; exact (LV p c eq_refl eq_refl S)).
      destruct (closed_step (nconn cfg) c e c1 S (n_gone _ _ NI0 o c (conj N S)) NR E) as (X & Y & _). auto.
    - intros S. apply (step_quiet (nconn cfg) c e c1 S E). }
  destruct (NI_settle cfg s o c c1 OK NI0 N M) as (s1 & S1 & S2 & S3 & S4). assert (s1 = s') by congruence. subst s1. split; [exact S2|].
  exists c, c1. split; [reflexivity|]. split; [exact E|]. split; [exact S3|]. eexists. exact S4.
Qed.
Lemma in_range_ev : forall p, in_range p -> ev_ok (VRecv p).
Proof. intros p R. destruct p; try exact I. cbn [ev_ok pkt_size_ok in_range] in *. unfold word in R. lia. Qed.
Lemma at_pkt : forall cfg s o src rts b p s' c, nodecfg_ok cfg -> NI cfg s -> decode b = Ok p -> in_range p -> nth_error (heap s) o = Some c -> cst c <> Sclosed ->
  (is_ci p = true \/ (dst_of p = csrc c /\ src = cdest c /\ (src_of p = cdst c \/ exists d, p = NAckConn d))) ->
  at_conn cfg s o (VRecv p) = Ok s' -> NI cfg s' /\ effect cfg (EPkt src rts b) s s'.
Proof.
  intros cfg s o src rts b p s' c OK NI0 D R N L A H. apply at_conn_ok in H; auto; [|apply in_range_ev; exact R|intros q k _ K; congruence].
  destruct H as (H1 & k & c1 & K1 & K2 & K3 & K4). assert (k = c) by congruence. subst k. split; [exact H1|]. eapply Ef_at; [exact N|exact K3| |exact K4]. eapply Af_pkt; eauto.
Qed.
Lemma step_effect : forall cfg s e s', nodecfg_ok cfg -> NI cfg s -> nev_ok e -> nstep cfg s e = Ok s' -> NI cfg s' /\ effect cfg e s s'.
Proof.
  intros cfg s e s' OK NI0 EO H. destruct e as [src rts b|d x|o v].
  - cbn [nstep nev_ok] in *. unfold ndispatch in H.
    destruct (nsp_decode_safe b EO) as [E|(p & E & R)]; rewrite E in H.
    { injection H as <-. split; [apply NI_say; [exact NI0|discriminate]|]. apply Ef_none; [reflexivity|]. right. eexists. split; [reflexivity|discriminate]. }
    assert (H' : (if is_ci p then if rts then match dget Z.eqb (conns s) (src_of p) with None => Ok s | Some o => match nth_error (heap s) o with None => Err EIndex | Some c => match cst c with Sci => at_conn cfg s o (VRecv p) | _ => Ok s end end end
        else new_ci cfg s src p else match map_conn s src p with (Some o, s1) => at_conn cfg s1 o (VRecv p) | (None, s1) => if silent_type p then Ok s1 else Ok (resport s1 src p) end) = Ok s') by (destruct p; try exact H; discriminate H).
    clear H. rename H' into H.
    assert (NONE : s' = s -> NI cfg s' /\ effect cfg (EPkt src rts b) s s') by (intros ->; split; [exact NI0|apply Ef_none; [reflexivity|left; reflexivity]]).
    destruct (is_ci p) eqn:CI.
    + destruct rts.
      * destruct (dget Z.eqb (conns s) (src_of p)) as [o|]; [|injection H as <-; auto]. destruct (nth_error (heap s) o) as [c|] eqn:N; [|discriminate]. destruct (cst c) eqn:S; try (injection H as <-; auto; fail).
        eapply (at_pkt cfg s o src true b p s' c); eauto. congruence.
      * unfold new_ci in H. destruct (dget key_eqb (rconns s) (src, src_of p)) as [o|].
        { destruct (nth_error (heap s) o) as [c|] eqn:N; [|discriminate]. destruct (cst c) eqn:S; try (injection H as <-; auto; fail); (eapply (at_pkt cfg s o src false b p s' c); eauto; congruence). }
        destruct (free s) as [|i f] eqn:F; cbn [get_id] in H.
        { injection H as <-. split; [apply NI_say; [exact NI0|discriminate]|]. apply Ef_none; [reflexivity|]. right. eexists. split; [reflexivity|discriminate]. }
        destruct (conn_inbound (nconn cfg) i src p) as [c|] eqn:CB; cbn [bind] in H; [|discriminate]. destruct (inbound_new _ _ _ _ _ CB) as (C1 & C2 & C3 & C4 & C5).
        assert (s' = mk_nnode (heap s ++ [c]) (dset Z.eqb (conns s) i (length (heap s))) (dset key_eqb (rconns s) (src, src_of p) (length (heap s))) f (nlog s)) by congruence. subst s'. split.
        { apply NI_new; auto; [congruence|]. intros k y K. rewrite app_length. cbn [length]. rewrite (dget_dset key_eqb decides_key) in K. destruct (key_eqb k _); [injection K as <-; lia|]. apply (n_rc _ _ NI0) in K. lia. }
        apply (Ef_new _ _ _ _ c); auto.
    + unfold map_conn in H. destruct (dget Z.eqb (conns s) (dst_of p)) as [o|] eqn:G.
      2: { destruct (silent_type p); injection H as <-; [auto|]. split; [apply NI_say; [exact NI0|discriminate]|]. apply Ef_none; [reflexivity|]. right. eexists. split; [reflexivity|discriminate]. }
      destruct (n_tab _ _ NI0 _ _ G) as (c & [N L] & SR). rewrite N in H.
      assert (ACK : forall k, negb (is_ackconn p) && negb (src_of p =? k) = false -> src_of p = k \/ exists d, p = NAckConn d).
      { intros k X. destruct (src_of p =? k) eqn:Y; [left; lia|]. right. cbn [negb] in X. rewrite andb_true_r in X. apply negb_false_iff in X. destruct p; try discriminate X. eauto. }
      assert (MISS : forall s1, heap s1 = heap s -> nlog s1 = nlog s -> NI cfg s1 -> (if silent_type p then Ok s1 else Ok (resport s1 src p)) = Ok s' -> NI cfg s' /\ effect cfg (EPkt src rts b) s s').
      { intros s1 E1 E2 E3 X. destruct (silent_type p); injection X as <-; [split; [exact E3|apply Ef_none; [exact E1|left; exact E2]]|].
        split; [apply NI_say; [exact E3|discriminate]|]. apply Ef_none; [exact E1|]. right. eexists. split; [cbn [resport nlog say]; rewrite E2; reflexivity|discriminate]. }
      assert (PLAIN : forall ok, (match (if negb ok then (None, s) else if negb (src =? cdest c) then (None, s) else if negb (is_ackconn p) && negb (src_of p =? cdst c) then (None, s) else (Some o, s)) with (Some o, s1) => at_conn cfg s1 o (VRecv p) | (None, s1) => if silent_type p then Ok s1 else Ok (resport s1 src p) end) = Ok s' -> NI cfg s' /\ effect cfg (EPkt src rts b) s s').
      { intros ok X. destruct (negb ok); [eapply MISS; eauto|]. destruct (negb (src =? cdest c)) eqn:S1; [eapply MISS; eauto|]. destruct (negb (is_ackconn p) && negb (src_of p =? cdst c)) eqn:S2; [eapply MISS; eauto|].
        eapply (at_pkt cfg s o src rts b p s' c); eauto. right. split; [congruence|]. split; [lia|]. apply ACK. exact S2. }
      assert (SET : cst c = Sci \/ cst c = Scd -> (match (let '(ok, c1, s1) := (if sets_addr p then if cdst c =? 0 then (true, set_cdst c (src_of p), set_heap (set_rconns s (dset key_eqb (rconns s) (src, src_of p) o)) (upd o (set_cdst c (src_of p)) (heap s))) else (true, c, s) else (is_ackconn p, c, s)) in
        if negb ok then (None, s1) else if negb (src =? cdest c1) then (None, s1) else if negb (is_ackconn p) && negb (src_of p =? cdst c1) then (None, s1) else (Some o, s1)) with (Some o, s1) => at_conn cfg s1 o (VRecv p) | (None, s1) => if silent_type p then Ok s1 else Ok (resport s1 src p) end) = Ok s' -> NI cfg s' /\ effect cfg (EPkt src rts b) s s').
      { intros ST X. destruct (sets_addr p); [|eapply (PLAIN (is_ackconn p)); exact X]. destruct (cdst c =? 0) eqn:Z0; [|eapply (PLAIN true); exact X].
        set (c1 := set_cdst c (src_of p)) in *. set (s1 := set_heap _ _) in X.
        assert (N1 : NI cfg s1).
        { apply (NI_upd cfg s o c c1); auto; [unfold c1; cbn [cst set_cdst]; tauto|unfold c1; cbn [cst set_cdst]; intros Y; congruence|].
          intros k y K. rewrite (dget_dset key_eqb decides_key) in K. destruct (key_eqb k _); [injection K as <-; apply nth_error_Some; congruence|]. apply (n_rc _ _ NI0) in K. exact K. }
        assert (AD : forall s2, heap s2 = heap s1 -> (exists l, nlog s2 = nlog s ++ l) -> effect cfg (EPkt src rts b) s s2).
        { intros s2 E1 E2. eapply Ef_at; [exact N|rewrite E1; reflexivity| |exact E2]. eapply Af_addr; eauto. lia. }
        assert (MISS2 : (if silent_type p then Ok s1 else Ok (resport s1 src p)) = Ok s' -> NI cfg s' /\ effect cfg (EPkt src rts b) s s').
        { intros Y. destruct (silent_type p); injection Y as <-; [split; [exact N1|]; apply AD; [reflexivity|exists []; now rewrite app_nil_r]|]. split; [apply NI_say; [exact N1|discriminate]|]. apply AD; [reflexivity|]. eexists. reflexivity. }
        cbn [negb] in X. destruct (negb (src =? cdest c1)) eqn:S1; [auto|]. destruct (negb (is_ackconn p) && negb (src_of p =? cdst c1)) eqn:S2; [auto|].
        assert (NN : nth_error (heap s1) o = Some c1) by (unfold s1; cbn [heap set_heap]; eapply upd_nth_same; exact N).
        apply at_conn_ok in X; auto; [|apply in_range_ev; exact R|intros q k _ K; rewrite NN in K; injection K as <-; exact L].
        destruct X as (X1 & k & c2 & K1 & K2 & K3 & K4). rewrite NN in K1. injection K1 as <-. split; [exact X1|].
        assert (HP : heap s' = upd o c2 (heap s)). { rewrite K3. unfold s1. cbn [heap set_heap]. clear. generalize (heap s) as l. revert o. intros o; induction o; intros [|y l]; cbn [upd]; try reflexivity. now rewrite IHo. }
        eapply Ef_at; [exact N|exact HP| |exact K4]. apply (Af_pkt _ _ _ _ _ src rts b p c1); auto; [right; split; [exact ST|]; split; [lia|reflexivity]|]. right. split; [congruence|]. split; [unfold c1 in S1; cbn [cdest set_cdst] in S1; lia|]. apply ACK. exact S2. }
      destruct (cst c) eqn:S; try (eapply PLAIN; exact H); (eapply SET; [auto|]; exact H).
  - cbn [nstep] in H. unfold nconnect in H. destruct (free s) as [|i f] eqn:F; cbn [get_id] in H.
    { injection H as <-. split; [apply NI_say; [exact NI0|discriminate]|]. apply Ef_none; [reflexivity|]. right. eexists. split; [reflexivity|discriminate]. }
    destruct d as [d|].
    + destruct (conn_outbound (nconn cfg) i d x) as [c|] eqn:CB; cbn [bind] in H; [|discriminate]. destruct (outbound_new _ _ _ _ _ CB) as (C1 & C2 & C3 & C4).
      assert (s' = mk_nnode (heap s ++ [c]) (dset Z.eqb (conns s) i (length (heap s))) (rconns s) f (nlog s)) by congruence. subst s'. split.
      { apply NI_new; auto; [congruence|]. intros k y K. rewrite app_length. apply (n_rc _ _ NI0) in K. lia. }
      apply (Ef_new _ _ _ _ c); auto.
    + injection H as <-. split; [apply NI_say; [eapply NI_leak; eauto|discriminate]|]. apply Ef_none; [reflexivity|]. right. eexists. split; [reflexivity|discriminate].
  - assert (NR : forall p, v <> VRecv p) by (intros p ->; discriminate H).
    assert (H' : at_conn cfg s o v = Ok s') by (destruct v; try exact H; discriminate H). apply at_conn_ok in H'; auto; [|destruct v; try exact I; destruct (NR p eq_refl)|intros p c ->; destruct (NR p eq_refl)].
    destruct H' as (H1 & c & c1 & K1 & K2 & K3 & K4). split; [exact H1|]. eapply Ef_at; [exact K1|exact K3| |exact K4]. eapply Af_user; eauto.
Qed.
Lemma reach_NI : forall cfg s, nodecfg_ok cfg -> nreach cfg s -> NI cfg s.
Proof.
  intros cfg s OK H. induction H as [f F|s e s' H IH EO ST].
  - destruct (inv_init _ _ (proj2 OK) F) as (A & _). constructor; cbn [heap conns rconns free nlog dkeys map app]; try exact A; try discriminate.
    + intros o c [X _]. destruct o; discriminate X.
    + intros o c [X _]. destruct o; discriminate X.
    + intros o. destruct o; reflexivity.
  - eapply step_effect; eauto.
Qed.

(** * Theorems *)
Lemma heap_step : forall cfg s e s' o c, nodecfg_ok cfg -> NI cfg s -> nev_ok e -> nstep cfg s e = Ok s' -> nth_error (heap s) o = Some c ->
  exists c', nth_error (heap s') o = Some c' /\ (c' = c \/ affects cfg e o c c').
Proof.
  intros cfg s e s' o c OK NI0 EO ST N. destruct (step_effect cfg s e s' OK NI0 EO ST) as [_ [H _|c0 H _ _ _|k c0 c1 K H A _]]; rewrite H.
  - exists c. auto.
  - exists c. split; [|auto]. rewrite nth_error_app1; [exact N|]. apply nth_error_Some. congruence.
  - destruct (Nat.eq_dec k o) as [-> |D]; [|exists c; rewrite upd_other by assumption; auto]. exists c1. rewrite (upd_nth_same _ _ _ _ _ N). assert (c0 = c) by congruence. subst c0. auto.
Qed.
(** The table of connections has exactly the live connections, each under its
    local address; so a closed connection is not in it. *)
Theorem nsp_table : forall cfg s, nodecfg_ok cfg -> nreach cfg s ->
  NoDup (dkeys (conns s)) /\
  (forall i o, dget Z.eqb (conns s) i = Some o <-> exists c, live s o c /\ csrc c = i) /\
  (forall i o c, gone s o c -> dget Z.eqb (conns s) i <> Some o).
Proof.
  intros cfg s OK R. pose proof (reach_NI cfg s OK R) as [I1 I2 I3 _ _ _]. split; [|split].
  - apply (nodup_map_inv _ _ (low (maxconns cfg + 1))). rewrite map_app in I1. apply NoDup_app_inv in I1. apply I1.
  - intros i o. split; [apply I2|]. intros (c & L & <-). apply I3. exact L.
  - intros i o c [G1 G2] X. destruct (I2 i o X) as (k & [K1 K2] & _). congruence.
Qed.
(** A connection is closed at most once, and is closed if and only if it was. *)
Theorem nsp_closed_once : forall cfg s o, nodecfg_ok cfg -> nreach cfg s ->
  (closes o (nlog s) <= 1)%nat /\ (closes o (nlog s) = 1%nat <-> exists c, gone s o c).
Proof.
  intros cfg s o OK R. pose proof (n_cnt _ _ (reach_NI cfg s OK R) o) as X. rewrite X. clear X. unfold gone. destruct (nth_error (heap s) o) as [c|] eqn:N.
  - destruct (cstate_eqb (cst c) Sclosed) eqn:E.
    + apply st_eqb in E. split; [lia|]. split; [intros _; exists c; auto|reflexivity].
    + split; [lia|]. split; [lia|]. intros (k & K1 & K2). assert (k = c) by congruence. subst k. rewrite K2 in E. discriminate E.
  - split; [lia|]. split; [lia|]. intros (k & K & _). discriminate.
Qed.
(** A closed connection stays closed.  It sends nothing and passes nothing up:
    all that calls of its API do is raise exceptions. *)
Theorem nsp_closed_forever : forall cfg s e s' o c, nodecfg_ok cfg -> nreach cfg s -> nev_ok e -> nstep cfg s e = Ok s' -> gone s o c ->
  exists c' l, gone s' o c' /\ clog c' = clog c ++ l /\ raises l.
Proof.
  intros cfg s e s' o c OK R EO ST [G1 G2]. pose proof (reach_NI cfg s OK R) as NI0. destruct (heap_step cfg s e s' o c OK NI0 EO ST G1) as (c' & N & [-> |A]).
  - exists c, []. split; [split; assumption|]. rewrite app_nil_r. split; [reflexivity|constructor].
  - destruct A as [v E NR H|src rts b p c0 _ _ _ L _ _ _|src rts b p _ _ L _ _].
    + destruct (closed_step _ _ _ _ G2 (n_gone _ _ NI0 o c (conj G1 G2)) NR H) as (X1 & _ & _ & _ & l & X2 & X3). exists c', l. split; [split; assumption|auto].
    + contradiction.
    + destruct L; congruence.
Qed.
(** Data, normal or interrupt, is passed up only when a packet with a segment
    arrives for this link, from the node and address at the other end, while the
    connection is in state run, or cc, which the segment turns into run. *)
Lemma seg_states : forall cfg c p c', is_seg p = true -> cst c <> Srun -> cst c <> Scc -> conn_recv cfg c p = Ok c' -> c' = c.
Proof.
  intros cfg c p c' S R1 R2 H. unfold conn_recv in H. destruct (cst c); try congruence; destruct p; try discriminate S; cbn in H; congruence.
Qed.
Theorem nsp_data_states : forall cfg s e s' o c c' l, nodecfg_ok cfg -> nreach cfg s -> nev_ok e -> nstep cfg s e = Ok s' ->
  nth_error (heap s) o = Some c -> nth_error (heap s') o = Some c' -> clog c' = clog c ++ l ->
  sc_msgs l <> [] \/ (exists ch, delivered ch l <> []) ->
  (cst c = Srun \/ cst c = Scc) /\
  exists rts b p, e = EPkt (cdest c) rts b /\ decode b = Ok p /\ dst_of p = csrc c /\ src_of p = cdst c /\
    match p with NData _ _ _ _ _ _ _ _ _ | NInt _ _ _ _ _ _ | NLs _ _ _ _ _ _ _ _ => True | _ => False end.
Proof.
  intros cfg s e s' o c c' l OK R EO ST N N' L X. pose proof (reach_NI cfg s OK R) as NI0. destruct (heap_step cfg s e s' o c OK NI0 EO ST N) as (k & K & A). assert (k = c') by congruence. subst k.
  assert (SIL : forall m, clog c' = clog c ++ m -> silent m -> False).
  { intros m M [M1 M2]. assert (m = l) by (eapply app_inv_head; rewrite <- L, <- M; reflexivity). subst m. destruct X as [X|(ch & X)]; [exact (X M2)|exact (X (M1 ch))]. }
  assert (SAME : clog c' = clog c -> False) by (intros M; apply (SIL []); [rewrite app_nil_r; exact M|apply silent_nil]).
  destruct A as [-> |A]; [destruct (SAME eq_refl)|]. destruct A as [v E NR H|src rts b p c0 E D RG LV C0 AD H|src rts b p _ _ _ _ -> ]; [| |destruct (SAME eq_refl)].
  - exfalso. assert (EV : ev_ok v) by (destruct v; try exact I; destruct (NR p eq_refl)). assert (NS : no_seg (ev_arr v)) by (destruct v; try exact I; destruct (NR p eq_refl)).
    destruct (rq_log _ _ (step_rxq _ _ _ _ EV (proj1 OK) NS H)) as (m & M1 & M2). eauto.
  - assert (LOG : clog c0 = clog c /\ cst c0 = cst c) by (destruct C0 as [-> |(_ & _ & -> )]; split; reflexivity). destruct LOG as [LOG ST0].
    destruct (is_seg p) eqn:SG.
    + assert (RUN : cst c = Srun \/ cst c = Scc).
      { destruct (cst c) eqn:S; auto; exfalso; apply SAME; rewrite <- LOG; f_equal; eapply seg_states; try exact H; try exact SG; congruence. }
      split; [exact RUN|]. destruct C0 as [-> |([Y|Y] & _)]; [|destruct RUN; congruence|destruct RUN; congruence].
      destruct AD as [CI|(A1 & A2 & A3)]; [destruct p; discriminate|]. exists rts, b, p. subst src. split; [exact E|]. split; [exact D|]. split; [exact A1|]. split; [destruct A3 as [A3|(d & -> )]; [exact A3|discriminate SG]|]. destruct p; try discriminate SG; exact I.
    + exfalso. destruct (rq_log _ _ (step_rxq _ _ _ _ (in_range_ev p RG) (proj1 OK) SG H)) as (m & M1 & M2). rewrite LOG in M1. eauto.
Qed.
Theorem nsp_new_silent : forall cfg s e s' o c, nodecfg_ok cfg -> nreach cfg s -> nev_ok e -> nstep cfg s e = Ok s' ->
  nth_error (heap s) o = None -> nth_error (heap s') o = Some c -> (cst c = Sci \/ cst c = Scr) /\ sc_msgs (clog c) = [] /\ forall ch, delivered ch (clog c) = [].
Proof.
  intros cfg s e s' o c OK R EO ST N N'. destruct (step_effect cfg s e s' OK (reach_NI cfg s OK R) EO ST) as [_ [H _|c0 H H1 H2 _|k c0 c1 K H A _]]; rewrite H in N'.
  - congruence.
  - assert (length (heap s) <= o)%nat by (apply nth_error_None; exact N). rewrite nth_error_app2 in N' by assumption. destruct (o - length (heap s))%nat as [|n]; [|destruct n; discriminate N']. injection N' as <-. destruct H2. auto.
  - destruct (Nat.eq_dec k o) as [-> |D]; [congruence|]. rewrite upd_other in N' by assumption. congruence.
Qed.
(** An event concerns at most one connection that exists. *)
Theorem nsp_one_connection : forall cfg s e s', nodecfg_ok cfg -> nreach cfg s -> nev_ok e -> nstep cfg s e = Ok s' ->
  exists o, forall k c, k <> o -> nth_error (heap s) k = Some c -> nth_error (heap s') k = Some c.
Proof.
  intros cfg s e s' OK R EO ST. destruct (step_effect cfg s e s' OK (reach_NI cfg s OK R) EO ST) as [_ [H _|c0 H _ _ _|k c0 c1 K H A _]]; rewrite H.
  - exists 0%nat. auto.
  - exists 0%nat. intros k c _ N. rewrite nth_error_app1; [exact N|]. apply nth_error_Some. congruence.
  - exists k. intros j c D N. rewrite upd_other by congruence. exact N.
Qed.
(** Packets for a link that does not exist: nothing changes, and the answer, if
    any, is a Disconnect Confirm with reason 41 (no link) to the sender. *)
Definition no_link (s : nnode) (src : Z) (p : npkt) : nnode :=
  match p with
  | NAckConn _ | NDC _ _ _ | NAckData _ _ _ _ | NAckOther _ _ _ _ => s
  | _ => mk_nnode (heap s) (conns s) (rconns s) (free s) (nlog s ++ [NReply src (NDC (src_of p) (dst_of p) 41)])
  end.
Definition not_ci (p : npkt) : Prop := match p with NCI _ _ _ _ _ _ | NEmpty => False | _ => True end.
Lemma dispatch_plain : forall cfg s src rts b p, decode b = Ok p -> not_ci p ->
  ndispatch cfg s src rts b = match map_conn s src p with (Some o, s1) => at_conn cfg s1 o (VRecv p) | (None, s1) => if silent_type p then Ok s1 else Ok (resport s1 src p) end.
Proof. intros cfg s src rts b p D N. unfold ndispatch. rewrite D. destruct p; try reflexivity; destruct N. Qed.
Lemma miss_no_link : forall s src p, not_ci p -> (if silent_type p then Ok s else Ok (resport s src p)) = Ok (no_link s src p).
Proof. intros s src p N. destruct p; try reflexivity; destruct N. Qed.
Theorem nsp_unknown_link : forall cfg s src rts b p, nodecfg_ok cfg -> nreach cfg s -> decode b = Ok p -> not_ci p ->
  (forall o c, live s o c -> csrc c <> dst_of p) ->
  nstep cfg s (EPkt src rts b) = Ok (no_link s src p).
Proof.
  intros cfg s src rts b p OK R D NC U. cbn [nstep]. rewrite (dispatch_plain _ _ _ _ _ _ D NC). unfold map_conn.
  destruct (dget Z.eqb (conns s) (dst_of p)) as [o|] eqn:G; [|apply miss_no_link; exact NC]. destruct (n_tab _ _ (reach_NI cfg s OK R) _ _ G) as (c & L & E). destruct (U o c L E).
Qed.
(** The same for a packet that is not from the other end of an established (or
    incoming, or disconnecting) link. *)
Theorem nsp_wrong_peer : forall cfg s src rts b p o c, nodecfg_ok cfg -> nreach cfg s -> decode b = Ok p -> not_ci p ->
  live s o c -> csrc c = dst_of p -> cst c <> Sci -> cst c <> Scd ->
  src <> cdest c \/ src_of p <> cdst c \/ (exists d, p = NAckConn d) ->
  nstep cfg s (EPkt src rts b) = Ok (no_link s src p).
Proof.
  intros cfg s src rts b p o c OK R D NC L E S1 S2 W. cbn [nstep]. rewrite (dispatch_plain _ _ _ _ _ _ D NC). unfold map_conn.
  rewrite <- E, (n_live _ _ (reach_NI cfg s OK R) _ _ L). destruct L as [N L]. rewrite N.
  assert (X : match cst c with Sci | Scd => if sets_addr p then if cdst c =? 0 then (true, set_cdst c (src_of p), set_heap (set_rconns s (dset key_eqb (rconns s) (src, src_of p) o)) (upd o (set_cdst c (src_of p)) (heap s))) else (true, c, s) else (is_ackconn p, c, s) | _ => (negb (is_ackconn p), c, s) end = (negb (is_ackconn p), c, s)) by (destruct (cst c); congruence).
  cbv zeta. rewrite X. rewrite negb_involutive. destruct (is_ackconn p) eqn:A; [apply miss_no_link; exact NC|]. cbn [negb andb].
  destruct (src =? cdest c) eqn:E1; [|apply miss_no_link; exact NC]. destruct (src_of p =? cdst c) eqn:E2; [|apply miss_no_link; exact NC]. exfalso. destruct W as [W|[W|(d & -> )]]; [lia|lia|discriminate A].
Qed.
(** Of an outgoing connection that waits for the answer, packets other than the
    answers (AckConn, Connect Confirm, Disconnect Initiate and Confirm). *)
Theorem nsp_early_link : forall cfg s src rts b p o c, nodecfg_ok cfg -> nreach cfg s -> decode b = Ok p ->
  match p with NData _ _ _ _ _ _ _ _ _ | NInt _ _ _ _ _ _ | NLs _ _ _ _ _ _ _ _ | NAckData _ _ _ _ | NAckOther _ _ _ _ => True | _ => False end ->
  live s o c -> csrc c = dst_of p -> cst c = Sci \/ cst c = Scd ->
  nstep cfg s (EPkt src rts b) = Ok (no_link s src p).
Proof.
  intros cfg s src rts b p o c OK R D T L E S. assert (NC : not_ci p) by (destruct p; try exact I; destruct T). cbn [nstep]. rewrite (dispatch_plain _ _ _ _ _ _ D NC). unfold map_conn.
  rewrite <- E, (n_live _ _ (reach_NI cfg s OK R) _ _ L). destruct L as [N L]. rewrite N. destruct S as [-> | -> ]; (destruct p; try destruct T; reflexivity).
Qed.
Theorem nsp_early_confirm : forall cfg s src rts b d a r o c, nodecfg_ok cfg -> nreach cfg s -> decode b = Ok (NDC d a r) -> r = 41 \/ r = 42 ->
  live s o c -> csrc c = d -> cst c = Sci \/ cst c = Scd -> nstep cfg s (EPkt src rts b) = Ok s.
Proof.
  intros cfg s src rts b d a r o c OK R D T L E S. cbn [nstep]. rewrite (dispatch_plain _ _ _ _ _ _ D I). unfold map_conn. cbn [dst_of].
  rewrite <- E, (n_live _ _ (reach_NI cfg s OK R) _ _ L). destruct L as [N L]. rewrite N. cbn [sets_addr]. replace (negb ((r =? 42) || (r =? 41))) with false by lia. destruct S as [-> | -> ]; reflexivity.
Qed.
(** The packets that do reach a connection: those from its partner; before the
    partner is known, the answers, and the first of them tells the link address
    of the partner. *)
Definition answer (p : npkt) : Prop := match p with NCC _ _ _ _ _ _ | NDI _ _ _ _ => True | NDC _ _ r => r <> 41 /\ r <> 42 | _ => False end.
Definition ackconn (p : npkt) : Prop := match p with NAckConn _ => True | _ => False end.
Definition maps (p : npkt) (c c0 : conn) : Prop :=
  if cstate_eqb (cst c) Sci || cstate_eqb (cst c) Scd
  then ackconn p /\ c0 = c \/ answer p /\ (cdst c = src_of p /\ c0 = c \/ cdst c = 0 /\ c0 = set_cdst c (src_of p))
  else ~ ackconn p /\ src_of p = cdst c /\ c0 = c.
Lemma sets_addr_answer : forall p, sets_addr p = true <-> answer p.
Proof. intros []; cbn [sets_addr answer]; try (split; [discriminate|tauto]); try tauto. split; intros H; [split; lia|]. destruct H. lia. Qed.
Lemma upd_upd : forall A (l : list A) i x y, upd i x (upd i y l) = upd i x l.
Proof. induction l as [|z l IH]; intros [|i] x y; cbn [upd]; try reflexivity. now rewrite IH. Qed.
Lemma settle_heap : forall cfg s o c c1 s', settle cfg s o c c1 = Ok s' -> heap s' = upd o c1 (heap s).
Proof.
  intros cfg s o c c1 s' H. unfold settle in H. cbv zeta in H. destruct (_ && _); [|injection H as <-; reflexivity]. destruct (dget _ _ _); [|discriminate]. injection H as <-. destruct (cdst c1 =? 0); reflexivity.
Qed.
Theorem nsp_partner_heard : forall cfg s src rts b p o c c0 s', nodecfg_ok cfg -> nreach cfg s -> decode b = Ok p -> not_ci p ->
  live s o c -> csrc c = dst_of p -> src = cdest c -> maps p c c0 -> nstep cfg s (EPkt src rts b) = Ok s' ->
  exists c1, cstep (nconn cfg) c0 (VRecv p) = Ok c1 /\ heap s' = upd o c1 (heap s).
Proof.
  intros cfg s src rts b p o c c0 s' OK R D NC L E SR M H. cbn [nstep] in H. rewrite (dispatch_plain _ _ _ _ _ _ D NC) in H. unfold map_conn in H.
  rewrite <- E, (n_live _ _ (reach_NI cfg s OK R) _ _ L) in H. destruct L as [N L]. rewrite N in H.
  assert (LT : (o < length (heap s))%nat) by (apply nth_error_Some; congruence).
  assert (AC : is_ackconn p = true <-> ackconn p) by (destruct p; cbn; try (split; [discriminate|tauto]); tauto).
  assert (G : forall s1 ci, nth_error (heap s1) o = Some ci -> (forall x, upd o x (heap s1) = upd o x (heap s)) -> at_conn cfg s1 o (VRecv p) = Ok s' -> exists c1, cstep (nconn cfg) ci (VRecv p) = Ok c1 /\ heap s' = upd o c1 (heap s)).
  { intros s1 ci N1 U A. unfold at_conn in A. rewrite N1 in A. destruct (cstep (nconn cfg) ci (VRecv p)) as [c1|]; cbn [bind] in A; [|discriminate]. apply settle_heap in A. exists c1. split; [reflexivity|]. rewrite A. apply U. }
  unfold maps in M. destruct (cstate_eqb (cst c) Sci || cstate_eqb (cst c) Scd) eqn:W.
  - assert (X : forall (T : Type) (a d : T), match cst c with Sci | Scd => a | _ => d end = a) by (intros; destruct (cst c); try discriminate W; reflexivity). rewrite X in H. clear X.
    destruct M as [[M -> ]|[M M2]].
    + assert (Z : sets_addr p = false) by (destruct p; try contradiction; reflexivity). rewrite Z in H. assert (Y : is_ackconn p = true) by (apply AC; exact M). rewrite Y in H. cbn [negb] in H. replace (src =? cdest c) with true in H by lia. cbn [negb andb] in H. eapply G; [exact N|reflexivity|exact H].
    + rewrite (proj2 (sets_addr_answer p) M) in H. assert (Y : is_ackconn p = false) by (destruct p; try contradiction; reflexivity). rewrite Y in H. destruct (cdst c =? 0) eqn:CZ.
      * cbn [negb cdest set_cdst cdst] in H. replace (src =? cdest c) with true in H by lia. replace (src_of p =? src_of p) with true in H by lia. cbn [negb andb] in H.
        assert (EQ : c0 = set_cdst c (src_of p)) by (destruct M2 as [[M2 -> ]|[_ -> ]]; [rewrite <- M2; destruct c; reflexivity|reflexivity]). subst c0.
        refine (G _ _ _ _ H); [|intros x; apply upd_upd]. cbn [heap set_heap]. clear - LT. revert o LT. induction (heap s) as [|z l IH]; intros [|o] LT; cbn [length] in LT; try lia; [reflexivity|]. cbn [upd nth_error]. apply IH. lia.
      * destruct M2 as [[M2 -> ]|[M2 _]]; [|lia]. cbn [negb] in H. replace (src =? cdest c) with true in H by lia. replace (src_of p =? cdst c) with true in H by lia. cbn [negb andb] in H. eapply G; [exact N|reflexivity|exact H].
  - destruct M as (M1 & M2 & ->). assert (Y : is_ackconn p = false) by (destruct (is_ackconn p) eqn:Z; [elim M1; apply AC; reflexivity|reflexivity]).
    assert (X : forall (T : Type) (a d : T), match cst c with Sci | Scd => a | _ => d end = d) by (intros; destruct (cst c); try discriminate W; reflexivity). rewrite X in H. clear X.
    rewrite Y in H. cbn [negb] in H. replace (src =? cdest c) with true in H by lia. replace (src_of p =? cdst c) with true in H by lia. cbn [negb andb] in H. eapply G; [exact N|reflexivity|exact H].
Qed.
(** A Connect Initiate that is returned finds its connection, or nothing
    happens. *)
Theorem nsp_returned_unknown : forall cfg s src b r a f i z x, nodecfg_ok cfg -> nreach cfg s -> decode b = Ok (NCI r a f i z x) ->
  (forall o c, live s o c -> csrc c = a -> cst c <> Sci) -> nstep cfg s (EPkt src true b) = Ok s.
Proof.
  intros cfg s src b r a f i z x OK R D U. cbn [nstep]. unfold ndispatch. rewrite D. cbn [is_ci src_of]. destruct (dget Z.eqb (conns s) a) as [o|] eqn:G; [|reflexivity].
  destruct (n_tab _ _ (reach_NI cfg s OK R) _ _ G) as (c & [N L] & E). rewrite N. pose proof (U o c (conj N L) E) as NE. destruct (cst c); try reflexivity. congruence.
Qed.

(** * The table of remote addresses *)
Lemma to_sc_dst : forall c p r, cdst (to_sc c p r) = cdst c.
Proof. intros c p r. destruct p; try reflexivity. cbn [to_sc]. destruct (casm c); repeat match goal with |- context [if ?q then _ else _] => destruct q end; reflexivity. Qed.
Lemma disc_dst : forall cfg c r x c1, disc_rej cfg c r x = Ok c1 -> cdst c1 = cdst c.
Proof. intros cfg c r x c1 H. unfold disc_rej in H. destruct (_ || _ || _); [discriminate|]. apply data_send_frame in H. exact (fr_dst _ _ H). Qed.
Lemma api_disc_dst : forall cfg c r x c1, api_disc cfg c r x = Ok c1 -> cdst c1 = cdst c.
Proof.
  intros cfg c r x c1 H. unfold api_disc in H. destruct (disc_rej cfg c r x) as [c2|er] eqn:E; [injection H as <-; eapply disc_dst; exact E|].
  destruct er; try discriminate H. injection H as <-. reflexivity.
Qed.
Lemma putc_dst : forall c ch s, cdst (putc c ch s) = cdst c.
Proof. intros c [] s; reflexivity. Qed.
Lemma process_ack_dst : forall cfg c ch a c', process_ack cfg c ch a = Ok c' -> cdst c' = cdst c.
Proof.
  intros cfg c ch a c' H. destruct ch; cbn [process_ack] in H; [|apply base_process_ack_frame in H; exact (fr_dst _ _ H)]. unfold data_process_ack in H.
  destruct (base_process_ack _ _ _) as [c1|] eqn:E; cbn [bind] in H; [|discriminate]. apply base_process_ack_frame in E. rewrite <- (fr_dst _ _ E).
  destruct (send_blocked cfg c1) as [c2|] eqn:E2; cbn [bind] in H; [|discriminate]. apply send_blocked_frame in E2. rewrite <- (fr_dst _ _ E2).
  destruct (cshut c2); [|injection H as <-; reflexivity]. destruct (pending (cdata c2)); [|injection H as <-; reflexivity].
  destruct (disc_rej _ _ _ _) as [c3|] eqn:E3; cbn [bind] in H; [|discriminate]. injection H as <-. apply disc_dst in E3. exact E3.
Qed.
Lemma process_data_dst : forall cfg c ch p c', process_data cfg c ch p = Ok c' -> cdst c' = cdst c.
Proof.
  intros cfg c ch p c' H. unfold process_data in H.
  assert (T : forall q, Ok (to_sc (emit c q) p false) = Ok c' -> cdst c' = cdst c) by (intros q X; injection X as <-; rewrite to_sc_dst; reflexivity).
  destruct ch; [eapply T; exact H|]. destruct p; try (eapply T; exact H). destruct (fcint =? 0).
  - unfold data_ls in H. match type of H with (match ?q with _ => _ end) = _ => destruct q as [s1|] end; [|injection H as <-; reflexivity]. apply send_blocked_frame in H. exact (fr_dst _ _ H).
  - unfold other_ls in H. injection H as <-. match goal with |- context [if ?q then _ else _] => destruct q end; reflexivity.
Qed.
Lemma accept_loop_dst : forall cfg n c ch num p c', accept_loop cfg n c ch num p = Ok c' -> cdst c' = cdst c.
Proof.
  induction n as [|n IH]; intros c ch num p c' H; cbn [accept_loop] in H; [discriminate|]. destruct (process_data _ _ _ _) as [c2|] eqn:E; cbn [bind] in H; [|discriminate].
  apply process_data_dst in E. rewrite putc_dst in E. destruct (mod_add 4096 num 1) as [m|]; cbn [bind] in H; [|discriminate]. destruct (dget Z.eqb _ m) as [q|]; [|injection H as <-; exact E].
  apply IH in H. rewrite putc_dst in H. congruence.
Qed.
Lemma sub_recv_dst : forall cfg c ch p c', sub_recv cfg c ch p = Ok c' -> cdst c' = cdst c.
Proof.
  intros cfg c ch p c' H. unfold sub_recv in H. destruct (process_ack cfg c ch (ack1 p)) as [c1|] eqn:E1; cbn [bind] in H; [|discriminate]. apply process_ack_dst in E1. rewrite <- E1.
  destruct (process_ack cfg c1 ch (ack2 p)) as [c2|] eqn:E2; cbn [bind] in H; [|discriminate]. apply process_ack_dst in E2. rewrite <- E2. clear c c1 E1 E2.
  assert (G : (let s := getc c2 ch in let num := segnum p in let* le := mod_le 4096 num (acknum s) in if le then send_ack c2 ch else let* nxt := mod_add 4096 (acknum s) 1 in
        if negb (num =? nxt) then Ok (putc c2 ch (set_ooo s (dset Z.eqb (ooo s) num p)))
        else let* c := accept_loop cfg (S (length (ooo s))) c2 ch num p in
          if dly p && (cphase c =? 4) && negb (cshut c) then if ackpending (getc c ch) && negb (hold (getc c ch)) then Ok (putc c ch (set_hold (getc c ch) true)) else Ok c
          else if ackpending (getc c ch) then send_ack c ch else Ok c) = Ok c' -> cdst c' = cdst c2).
  { intros X. cbv zeta in X. destruct (mod_le _ _ _) as [le|]; cbn [bind] in X; [|discriminate]. destruct le; [apply send_ack_frame in X; exact (fr_dst _ _ X)|].
    destruct (mod_add _ _ _) as [nxt|]; cbn [bind] in X; [|discriminate]. destruct (negb _); [injection X as <-; apply putc_dst|].
    destruct (accept_loop _ _ _ _ _ _) as [c3|] eqn:E; cbn [bind] in X; [|discriminate]. apply accept_loop_dst in E. rewrite <- E.
    destruct (_ && _ && _); [destruct (_ && _); injection X as <-; [apply putc_dst|reflexivity]|]. destruct (ackpending _); [apply send_ack_frame in X; exact (fr_dst _ _ X)|injection X as <-; reflexivity]. }
  destruct p; try (apply G; exact H); injection H as <-; reflexivity.
Qed.
Lemma run_dst : forall cfg c p c', run_recv cfg c p = Ok c' -> cdst c' = cdst c.
Proof.
  intros cfg c p c' H. unfold run_recv in H. set (c0 := if 2 <? cphase c then set_ctimer c true else c) in *.
  assert (R0 : cdst c0 = cdst c) by (unfold c0; destruct (2 <? cphase c); reflexivity). rewrite <- R0. clearbody c0.
  destruct p; try (injection H as <-; reflexivity); try (eapply sub_recv_dst; exact H).
  - destruct (2 <? cphase c0); [apply send_ack_frame in H; exact (fr_dst _ _ H)|injection H as <-; reflexivity].
  - destruct (sendmsg _ _ _) as [c1|] eqn:E; cbn [bind] in H; [|discriminate]. injection H as <-. apply sendmsg_frame in E. exact (fr_dst _ _ E).
Qed.
Lemma cd_dst : forall cfg c p c', cd_recv cfg c p = Ok c' -> cdst c' = cdst c \/ (cdst c' = src_of p /\ forall d, p <> NAckConn d).
Proof.
  intros cfg c p c' H. destruct p; cbn [cd_recv] in H; try (injection H as <-; left; reflexivity).
  - right. destruct (chan_ack _ _ _) as [c1|] eqn:E; cbn [bind] in H; [|discriminate]. apply chan_ack_frame in E. pose proof (fr_dst _ _ E) as D. cbn in D.
    destruct (if 2 <? cphase c1 then _ else _) as [c2|] eqn:F; cbn [bind] in H; [|discriminate]. injection H as <-. cbn [cdst set_cst to_sc emit set_clog src_of]. split; [|discriminate]. rewrite <- D.
    destruct (2 <? cphase c1); [|injection F as <-; reflexivity]. destruct (send_ack c1 CD) as [c3|] eqn:K; cbn [bind] in F; [|discriminate]. injection F as <-. apply send_ack_frame in K. exact (fr_dst _ _ K).
  - right. destruct (sendmsg _ _ _) as [c1|] eqn:E; cbn [bind] in H; [|discriminate]. injection H as <-. apply sendmsg_frame in E. split; [exact (fr_dst _ _ E)|discriminate].
Qed.
Lemma keep_dst : forall c f c', (let* n := f in let* (c1, _) := other_send (set_coth c (set_seqnum (coth c) n)) (NLs (cdst c) (csrc c) None None (seqnum (coth c)) 0 0 0) in Ok c1) = Ok c' -> cdst c' = cdst c.
Proof.
  intros c f c' H. destruct f as [n|]; cbn [bind] in H; [|discriminate]. destruct (other_send _ _) as [[c1 b]|] eqn:E; cbn [bind] in H; [|discriminate]. injection H as <-. apply other_send_frame in E. exact (fr_dst _ _ E).
Qed.
Lemma reject_dst : forall cfg c r x c1, conn_reject cfg c r x = Ok c1 -> cdst c1 = cdst c.
Proof. intros cfg c r x c1 H. unfold conn_reject in H. destruct (negb _); [injection H as <-; reflexivity|]. apply api_disc_dst in H. exact H. Qed.
Lemma step_dst : forall cfg c e c', cstep cfg c e = Ok c' -> cdst c' = cdst c \/ exists p, e = VRecv p /\ (cst c = Sci \/ cst c = Scd) /\ cdst c' = src_of p /\ is_ci p = false /\ forall d, p <> NAckConn d.
Proof.
  intros cfg c e c' H.
  assert (FR : frame c c' -> cdst c' = cdst c) by (intros F; exact (fr_dst _ _ F)).
  destruct e; cbn [cstep] in H.
  - assert (CD0 : cst c = Sci \/ cst c = Scd -> is_ci p = false -> cd_recv cfg c p = Ok c' -> cdst c' = cdst c \/ exists q, VRecv p = VRecv q /\ (cst c = Sci \/ cst c = Scd) /\ cdst c' = src_of q /\ is_ci q = false /\ forall d, q <> NAckConn d).
    { intros ST NC X. apply cd_dst in X. destruct X as [X|[X Y]]; [left; exact X|right; exists p; auto]. }
    unfold conn_recv in H. destruct (cst c) eqn:S.
    + unfold ci_recv in H. destruct p; try (apply CD0; [left; reflexivity|reflexivity|exact H]); left.
      * destruct (2 <? phase cfg); [|injection H as <-; reflexivity]. destruct (chan_ack c CD 0) as [c1|] eqn:E; cbn [bind] in H; [|discriminate]. injection H as <-. apply chan_ack_frame in E. exact (fr_dst _ _ E).
      * injection H as <-. reflexivity.
    + destruct p; try (apply CD0; [right; reflexivity|reflexivity|exact H]). injection H as <-. left. reflexivity.
    + left. unfold cr_recv in H. destruct p; try (injection H as <-; reflexivity). destruct (2 <? cphase c); [|injection H as <-; reflexivity]. apply FR. eapply sendmsg_frame. exact H.
    + left. unfold cc_recv in H. destruct (if is_ackhdr p then _ else _) as [c1|] eqn:E; cbn [bind] in H; [|discriminate]. apply run_dst in H. rewrite H. cbn [cdst emit set_clog set_cst].
      destruct (is_ackhdr p); [apply chan_ack_frame in E; exact (fr_dst _ _ E)|injection E as <-; reflexivity].
    + left. eapply run_dst; eauto.
    + left. unfold di_recv in H. destruct p; try (injection H as <-; reflexivity). destruct (sendmsg _ _ _) as [c1|] eqn:E; cbn [bind] in H; [|discriminate]. injection H as <-. apply sendmsg_frame in E. exact (fr_dst _ _ E).
    + discriminate.
  - left. unfold conn_accept in H. destruct (negb _); [injection H as <-; reflexivity|]. destruct (cphase c =? 2); [apply sendmsg_frame in H|apply data_send_frame in H]; exact (fr_dst _ _ H).
  - left. eapply reject_dst. exact H.
  - left. unfold conn_disconnect in H. destruct (negb _); [injection H as <-; reflexivity|]. destruct (pending (cdata c)); [apply api_disc_dst in H; exact H|injection H as <-; reflexivity].
  - left. unfold conn_abort in H. destruct (negb _); [injection H as <-; reflexivity|]. destruct (disc_rej cfg c r x) as [c1|er] eqn:E; [injection H as <-; apply disc_dst in E; exact E|]. destruct er; try discriminate H. injection H as <-. reflexivity.
  - left. unfold conn_send in H. destruct (_ || _); [injection H as <-; reflexivity|]. destruct (csegsize c =? 0); [discriminate|]. apply send_segs_frame in H. exact (fr_dst _ _ H).
  - left. unfold conn_interrupt in H. destruct (_ || _); [injection H as <-; reflexivity|]. destruct (16 <? zlen data); [injection H as <-; reflexivity|].
    destruct (other_send _ _) as [[c1 b]|] eqn:E; cbn [bind] in H; [|discriminate]. apply other_send_frame in E. rewrite <- (fr_dst _ _ E). destruct b; [|injection H as <-; reflexivity].
    destruct (mod_add 4096 (seqnum (coth c1)) 1); cbn [bind] in H; [|discriminate]. injection H as <-. reflexivity.
  - left. injection H as <-. reflexivity.
  - left. unfold conn_timeout in H. destruct (negb (ctimer c)); [injection H as <-; reflexivity|]. pose proof (eq_refl : cdst (set_ctimer c false) = cdst c) as S0. revert S0 H. generalize (set_ctimer c false) as c0. intros c0 S0 H. rewrite <- S0.
    destruct (cst c0) eqn:S; try (injection H as <-; reflexivity); try (eapply keep_dst; exact H); [|discriminate].
    destruct (conn_reject cfg c0 OBJ_FAIL []) as [c1|] eqn:E; cbn [bind] in H; [|discriminate]. injection H as <-. apply reject_dst in E. exact E.
  - left. unfold holdoff in H. destruct (hold (getc c ch)); [|injection H as <-; reflexivity]. apply send_ack_frame in H. rewrite (fr_dst _ _ H). apply putc_dst.
  - left. unfold retransmit in H. destruct (nth_error (pending (getc c ch)) i) as [e|]; [|injection H as <-; reflexivity]. destruct (negb (ttimer e)); [injection H as <-; reflexivity|].
    destruct (retransmits cfg <=? ttries e); [destruct (is_ci (tp e)); injection H as <-; destruct ch; reflexivity|].
    destruct (_ || _); [apply tx_send_frame in H; rewrite (fr_dst _ _ H); apply putc_dst|injection H as <-; apply putc_dst].
Qed.

Definition RC (s : nnode) : Prop := forall n a o c, dget key_eqb (rconns s) (n, a) = Some o -> nth_error (heap s) o = Some c -> n = cdest c -> a <> 0 -> cst c <> Sclosed /\ cdst c = a.
Lemma RC_at : forall cfg s o c e s', nodecfg_ok cfg -> NI cfg s -> RC s -> nth_error (heap s) o = Some c -> ev_ok e ->
  (forall p, e = VRecv p -> cst c <> Sclosed /\ (is_ci p = true \/ src_of p = cdst c \/ exists d, p = NAckConn d)) ->
  at_conn cfg s o e = Ok s' -> RC s'.
Proof.
  intros cfg s o c e s' OK NI0 R N EO P H. unfold at_conn in H. rewrite N in H. destruct (cstep (nconn cfg) c e) as [c1|] eqn:E; cbn [bind] in H; [|discriminate].
  destruct (step_ids _ _ _ _ (proj1 OK) EO E) as [I1 I2].
  assert (D : cdst c1 = cdst c).
  { destruct (step_dst _ _ _ _ E) as [X|(p & -> & _ & X & NC & NA)]; [exact X|]. destruct (proj2 (P p eq_refl)) as [Y|[Y|(d & Y)]]; [congruence|congruence|destruct (NA d Y)]. }
  assert (CL : cst c = Sclosed -> cst c1 = Sclosed).
  { intros X. assert (NR : forall p, e <> VRecv p) by (intros p ->; exact (proj1 (P p eq_refl) X)). apply (closed_step _ _ _ _ X (n_gone _ _ NI0 o c (conj N X)) NR E). }
  unfold settle in H. cbn [conns set_heap] in H. destruct (negb (cstate_eqb (cst c) Sclosed) && cstate_eqb (cst c1) Sclosed) eqn:B.
  - destruct (dget Z.eqb (conns s) (csrc c1)) as [z|]; [|discriminate]. injection H as <-. intros n a x k G K NE A0.
    assert (HP : nth_error (upd o c1 (heap s)) x = Some k) by (destruct (cdst c1 =? 0); exact K). clear K.
    assert (GG : dget key_eqb (rconns s) (n, a) = Some x /\ (cdst c1 <> 0 -> (n, a) <> (cdest c1, cdst c1))).
    { destruct (cdst c1 =? 0) eqn:Z0; cbn [say set_free rconns set_rconns set_conns set_heap] in G; [split; [exact G|lia]|]. rewrite !(dget_ddel key_eqb decides_key) in G. destruct (key_eqb (n, a) (own cfg, cdst c1)); [discriminate|].
      destruct (key_eqb (n, a) (cdest c1, cdst c1)) eqn:KE; [discriminate|]. split; [exact G|]. intros _ X. apply decides_key in X. congruence. }
    destruct GG as [G1 G2]. destruct (Nat.eq_dec o x) as [<-|X].
    + rewrite (upd_nth_same _ _ _ _ _ N) in HP. injection HP as <-. destruct (R n a o c G1 N) as [R1 R2]; [congruence|exact A0|]. destruct G2; congruence.
    + rewrite upd_other in HP by assumption. eapply R; eauto.
  - injection H as <-. intros n a x k G K NE A0. cbn [heap rconns set_heap] in *. destruct (Nat.eq_dec o x) as [<-|X].
    + rewrite (upd_nth_same _ _ _ _ _ N) in K. injection K as <-. destruct (R n a o c G N) as [R1 R2]; [congruence|exact A0|]. split; [|congruence].
      intros Y. rewrite Y, (st_eqb_no _ _ R1) in B. discriminate B.
    + rewrite upd_other in K by assumption. eapply R; eauto.
Qed.
Lemma RC_say : forall s x, RC s -> RC (say s x). Proof. intros s x H. exact H. Qed.
Lemma RC_new : forall s c rc cn f, NI cn s -> RC s -> cst c <> Sclosed -> (rc = rconns s \/ rc = dset key_eqb (rconns s) (cdest c, cdst c) (length (heap s))) -> forall d, RC (mk_nnode (heap s ++ [c]) d rc f (nlog s)).
Proof.
  intros s c rc cn f NI0 R L E d n a x k G K NE A0. cbn [heap rconns] in *.
  assert (OLD : dget key_eqb (rconns s) (n, a) = Some x -> cst k <> Sclosed /\ cdst k = a).
  { intros G1. assert (x < length (heap s))%nat by (eapply n_rc; eauto). rewrite nth_error_app1 in K by assumption. eapply R; eauto. }
  destruct E as [-> | -> ]; [auto|]. rewrite (dget_dset key_eqb decides_key) in G. destruct (key_eqb (n, a) (cdest c, cdst c)) eqn:KE; [|auto].
  injection G as <-. rewrite nth_error_app2, Nat.sub_diag in K by lia. injection K as <-. apply decides_key in KE. injection KE as -> ->. auto.
Qed.
Lemma RC_step : forall cfg s e s', nodecfg_ok cfg -> NI cfg s -> RC s -> nev_ok e -> nstep cfg s e = Ok s' -> RC s'.
Proof.
  intros cfg s e s' OK NI0 RC0 EO H. destruct e as [src rts b|d x|o v].
  - cbn [nstep nev_ok] in *. destruct (nsp_decode_safe b EO) as [E|(p & E & R)]; [unfold ndispatch in H; rewrite E in H; injection H as <-; exact RC0|].
    destruct (is_ci p) eqn:CI.
    + assert (H' : (if rts then match dget Z.eqb (conns s) (src_of p) with None => Ok s | Some o => match nth_error (heap s) o with None => Err EIndex | Some c => match cst c with Sci => at_conn cfg s o (VRecv p) | _ => Ok s end end end
        else new_ci cfg s src p) = Ok s') by (unfold ndispatch in H; rewrite E in H; destruct p; try discriminate CI; exact H). clear H. rename H' into H.
      assert (AT : forall o c, nth_error (heap s) o = Some c -> cst c <> Sclosed -> at_conn cfg s o (VRecv p) = Ok s' -> RC s').
      { intros o c N L X. eapply RC_at; eauto; [apply in_range_ev; exact R|]. intros q Q. injection Q as <-. auto. }
      destruct rts.
      * destruct (dget Z.eqb (conns s) (src_of p)) as [o|]; [|injection H as <-; exact RC0]. destruct (nth_error (heap s) o) as [c|] eqn:N; [|discriminate].
        destruct (cst c) eqn:S; try (injection H as <-; exact RC0). eapply AT; eauto. congruence.
      * unfold new_ci in H. destruct (dget key_eqb (rconns s) (src, src_of p)) as [o|].
        { destruct (nth_error (heap s) o) as [c|] eqn:N; [|discriminate]. destruct (cst c) eqn:S; try (injection H as <-; exact RC0); (eapply AT; eauto; congruence). }
        destruct (get_id (free s)) as [[i f]|]; [|injection H as <-; exact RC0].
        destruct (conn_inbound (nconn cfg) i src p) as [c|] eqn:CB; cbn [bind] in H; [|discriminate]. destruct (inbound_new _ _ _ _ _ CB) as (C1 & C2 & C3 & C4 & _).
        assert (s' = mk_nnode (heap s ++ [c]) (dset Z.eqb (conns s) i (length (heap s))) (dset key_eqb (rconns s) (src, src_of p) (length (heap s))) f (nlog s)) by congruence. subst s'.
        apply (RC_new s c _ cfg); auto; [congruence|]. right. rewrite C3, C4. reflexivity.
    + assert (NE : p = NEmpty \/ not_ci p) by (destruct p; try (left; reflexivity); try (right; exact I); discriminate CI). destruct NE as [-> |NC]; [unfold ndispatch in H; rewrite E in H; discriminate H|].
      rewrite (dispatch_plain _ _ _ _ _ _ E NC) in H. unfold map_conn in H. destruct (dget Z.eqb (conns s) (dst_of p)) as [o|] eqn:G; [|rewrite miss_no_link in H by exact NC; injection H as <-; destruct p; exact RC0].
      destruct (n_tab _ _ NI0 _ _ G) as (c & [N L] & SR). rewrite N in H.
      assert (MAP : forall s1 c1 ok, NI cfg s1 -> RC s1 -> nth_error (heap s1) o = Some c1 -> cst c1 <> Sclosed ->
        (match (if negb ok then (None, s1) else if negb (src =? cdest c1) then (None, s1) else if negb (is_ackconn p) && negb (src_of p =? cdst c1) then (None, s1) else (Some o, s1)) with (Some o, s1) => at_conn cfg s1 o (VRecv p) | (None, s1) => if silent_type p then Ok s1 else Ok (resport s1 src p) end) = Ok s' -> RC s').
      { intros s1 c1 ok NI1 RC1 N1 L1 X. assert (MS : (if silent_type p then Ok s1 else Ok (resport s1 src p)) = Ok s' -> RC s') by (intros Y; destruct (silent_type p); injection Y as <-; exact RC1).
        destruct (negb ok); [auto|]. destruct (negb (src =? cdest c1)); [auto|]. destruct (negb (is_ackconn p) && negb (src_of p =? cdst c1)) eqn:S2; [auto|].
        eapply RC_at; eauto; [apply in_range_ev; exact R|]. intros q Q. injection Q as <-. split; [exact L1|]. right. destruct (src_of p =? cdst c1) eqn:Y; [left; lia|]. right. cbn [negb] in S2. rewrite andb_true_r in S2. apply negb_false_iff in S2. destruct p; try discriminate S2. eauto. }
      assert (SET : cst c = Sci \/ cst c = Scd -> cdst c = 0 -> NI cfg (set_heap (set_rconns s (dset key_eqb (rconns s) (src, src_of p) o)) (upd o (set_cdst c (src_of p)) (heap s))) /\ RC (set_heap (set_rconns s (dset key_eqb (rconns s) (src, src_of p) o)) (upd o (set_cdst c (src_of p)) (heap s)))).
      { intros ST Z0. split.
        - apply (NI_upd cfg s o c); auto; [cbn [cst set_cdst]; tauto|cbn [cst set_cdst]; intros Y; congruence|].
          intros k y K. rewrite (dget_dset key_eqb decides_key) in K. destruct (key_eqb k _); [injection K as <-; apply nth_error_Some; congruence|]. apply (n_rc _ _ NI0) in K. exact K.
        - intros n a y k GG K NE A0. cbn [heap rconns set_heap set_rconns] in *. rewrite (dget_dset key_eqb decides_key) in GG. destruct (key_eqb (n, a) (src, src_of p)) eqn:KE.
          + injection GG as <-. rewrite (upd_nth_same _ _ _ _ _ N) in K. injection K as <-. apply decides_key in KE. injection KE as -> ->. split; [exact L|reflexivity].
          + destruct (Nat.eq_dec o y) as [<-|X]; [|rewrite upd_other in K by assumption; eapply RC0; eauto]. rewrite (upd_nth_same _ _ _ _ _ N) in K. injection K as <-. destruct (RC0 n a o c GG N NE A0). lia. }
      assert (SETC : cst c = Sci \/ cst c = Scd -> (match (let '(ok, c1, s1) := (if sets_addr p then if cdst c =? 0 then (true, set_cdst c (src_of p), set_heap (set_rconns s (dset key_eqb (rconns s) (src, src_of p) o)) (upd o (set_cdst c (src_of p)) (heap s))) else (true, c, s) else (is_ackconn p, c, s)) in
        if negb ok then (None, s1) else if negb (src =? cdest c1) then (None, s1) else if negb (is_ackconn p) && negb (src_of p =? cdst c1) then (None, s1) else (Some o, s1)) with (Some o, s1) => at_conn cfg s1 o (VRecv p) | (None, s1) => if silent_type p then Ok s1 else Ok (resport s1 src p) end) = Ok s' -> RC s').
      { intros ST X. destruct (sets_addr p); [|eapply (MAP s c); eauto]. destruct (cdst c =? 0) eqn:Z0; [|eapply (MAP s c); eauto]. destruct (SET ST) as [N1 R1]; [lia|].
        eapply (MAP _ (set_cdst c (src_of p)) true N1 R1); [cbn [heap set_heap]; eapply upd_nth_same; exact N|exact L|exact X]. }
      destruct (cst c) eqn:S; try (eapply (MAP s c); [exact NI0|exact RC0|exact N|congruence|exact H]); (apply SETC; [auto|exact H]).
  - cbn [nstep] in H. unfold nconnect in H. destruct (get_id (free s)) as [[i f]|]; [|injection H as <-; exact RC0]. destruct d as [d|]; [|injection H as <-; exact RC0].
    destruct (conn_outbound (nconn cfg) i d x) as [c|] eqn:CB; cbn [bind] in H; [|discriminate]. destruct (outbound_new _ _ _ _ _ CB) as (C1 & C2 & C3 & C4).
    assert (s' = mk_nnode (heap s ++ [c]) (dset Z.eqb (conns s) i (length (heap s))) (rconns s) f (nlog s)) by congruence. subst s'. apply (RC_new s c _ cfg); auto. congruence.
  - assert (NR : forall p, v <> VRecv p) by (intros p ->; discriminate H).
    assert (H' : at_conn cfg s o v = Ok s') by (destruct v; try exact H; discriminate H). destruct (nth_error (heap s) o) as [c|] eqn:N; [|unfold at_conn in H'; rewrite N in H'; discriminate].
    eapply RC_at; eauto; [destruct v; try exact I; destruct (NR p eq_refl)|]. intros p ->. destruct (NR p eq_refl).
Qed.
(** An entry recorded for the other end of its connection (and the address
    was not 0) leads to a connection that is not closed and has this remote
    address. *)
Theorem nsp_remote_table : forall cfg s n a o c, nodecfg_ok cfg -> nreach cfg s ->
  dget key_eqb (rconns s) (n, a) = Some o -> nth_error (heap s) o = Some c -> n = cdest c -> a <> 0 -> cst c <> Sclosed /\ cdst c = a.
Proof.
  intros cfg s n a o c OK R. revert n a o c. change (RC s). induction R as [f F|s e s' R IH EO ST]; [intros n a o c X; discriminate X|]. eapply RC_step; eauto. apply reach_NI; assumption.
Qed.

(** * Examples *)
Definition nx_cfg : nodecfg := mk_nodecfg (mk_ncfg 4 20 5 2) 1026 255.
Definition nx0 : nnode := mk_nnode [] [] [] free0 [].
Fixpoint nrun (s : nnode) (l : list nev) : res nnode := match l with [] => Ok s | e :: t => let* s1 := nstep nx_cfg s e in nrun s1 t end.
Definition bytes_okb (b : list Z) : bool := forallb (fun x => (0 <=? x) && (x <? 256)) b.
Definition nev_okb (e : nev) : bool := match e with EPkt _ _ b => bytes_okb b | _ => true end.
Lemma nev_okb_ok : forall e, nev_okb e = true -> nev_ok e.
Proof. intros [src rts b| |] H; try exact I. cbn [nev_okb nev_ok] in *. unfold bytes_okb in H. rewrite forallb_forall in H. apply Forall_forall. intros x X. apply H in X. unfold byte_ok. lia. Qed.
Lemma nx_ok : nodecfg_ok nx_cfg /\ nreach nx_cfg nx0.
Proof. split; [split; [cbn; lia|apply ids_example]|]. apply nr_init. apply (proj1 (proj2 ids_example)). Qed.
Lemma nrun_reach : forall l s s', nreach nx_cfg s -> forallb nev_okb l = true -> nrun s l = Ok s' -> nreach nx_cfg s'.
Proof.
  induction l as [|e l IH]; intros s s' R F H; cbn [nrun forallb] in *; [injection H as <-; exact R|]. apply andb_true_iff in F as [F1 F2]. destruct (nstep nx_cfg s e) as [s1|] eqn:E; cbn [bind] in H; [|discriminate].
  eapply IH; [|exact F2|exact H]. eapply nr_step; [exact R|apply nev_okb_ok; exact F1|exact E].
Qed.
Definition n_sum (r : res nnode) : option (list (cstate * list (list Z) * nat) * dict Z nat * dict (Z * Z) nat * list nout) :=
  match r with Ok s => Some (map (fun c => (cst c, sc_msgs (clog c), length (clog c))) (heap s), conns s, rconns s, nlog s) | Err _ => None end.
(** An incoming connection is accepted, gets a message and is closed by the
    other side; a late segment is answered with no link; send then raises. *)
Definition nx_events : list nev :=
  [EPkt 1025 false (wire (NCI false 300 0 2 563 [])); EUser 0 (VAccept []);
   EPkt 1025 false (wire (NData 769 300 (Some (0, 0)) None 1 0 1 1 [7; 8])); EPkt 1025 false (wire (NDI 769 300 0 []));
   EPkt 1025 false (wire (NData 769 300 None None 2 0 1 1 [9])); EUser 0 (VSend [1])].
Example nsp_node_example : forallb nev_okb nx_events = true /\
  n_sum (nrun nx0 (firstn 3 nx_events)) = Some ([(Srun, [[7; 8]], 7%nat)], [(769, 0%nat)], [((1025, 300), 0%nat)], []) /\
  n_sum (nrun nx0 nx_events) = Some ([(Sclosed, [[7; 8]], 10%nat)], [], [], [NClosed 0; NReply 1025 (NDC 300 769 41)]).
Proof. vm_compute. auto. Qed.
(** "A closed connection is in no lookup table" is not true of the table of
    remote addresses.  Here node 2050 sends a Connect Confirm to a connection
    this node is making to node 1025.  It is answered with no link, but the
    connection now has its address, and the table an entry that is still there
    when the connection is closed.  A Connect Initiate from node 2050 with that
    address then gets no answer. *)
Definition nx_hijack : list nev := [EConnect (Some 1025) [1]; EPkt 2050 false (wire (NCC 769 9 0 2 563 []))].
Theorem nsp_remote_table_refuted :
  ~ (forall cfg s k o, nodecfg_ok cfg -> nreach cfg s -> dget key_eqb (rconns s) k = Some o -> exists c, live s o c) /\
  exists s, nreach nx_cfg s /\ heap s <> [] /\ Forall (fun c => cst c = Sclosed) (heap s) /\
    nstep nx_cfg s (EPkt 2050 false (wire (NCI false 9 0 2 563 []))) = Ok s.
Proof.
  destruct (nrun nx0 (nx_hijack ++ [EUser 0 VTimer])) as [s|] eqn:E; [|vm_compute in E; discriminate E].
  assert (R : nreach nx_cfg s) by (eapply nrun_reach; [apply nx_ok| |exact E]; vm_compute; reflexivity). vm_compute in E. injection E as <-. split.
  - intros F. destruct (F nx_cfg _ (2050, 9) 0%nat (proj1 nx_ok) R eq_refl) as (c & L1 & L2). vm_compute in L1. injection L1 as <-. apply L2. reflexivity.
  - eexists. split; [exact R|]. split; [discriminate|]. split; [repeat constructor|]. vm_compute. reflexivity.
Qed.
(** A packet from a node that is not the other end of the connection does change
    the state of an outgoing connection: the answer of the right node is then
    answered with no link. *)
Theorem nsp_early_peer_refuted : exists s0 s1 c0 c1, nreach nx_cfg s0 /\ live s0 0 c0 /\ cdest c0 = 1025 /\ cst c0 = Sci /\
  nstep nx_cfg s0 (EPkt 2050 false (wire (NCC 769 9 0 2 563 []))) = Ok s1 /\ live s1 0 c1 /\ cdst c0 = 0 /\ cdst c1 = 9 /\
  nstep nx_cfg s1 (EPkt 1025 false (wire (NCC 769 300 0 2 563 []))) = Ok (no_link s1 1025 (NCC 769 300 0 2 563 [])).
Proof.
  destruct (nrun nx0 (firstn 1 nx_hijack)) as [s0|] eqn:E; [|vm_compute in E; discriminate E].
  assert (R : nreach nx_cfg s0) by (eapply nrun_reach; [apply nx_ok| |exact E]; vm_compute; reflexivity). vm_compute in E. injection E as <-.
  eexists. eexists. eexists. eexists. split; [exact R|]. split; [split; [reflexivity|discriminate]|]. split; [reflexivity|]. split; [reflexivity|]. split; [vm_compute; reflexivity|]. split; [split; [reflexivity|discriminate]|]. split; [reflexivity|]. split; [reflexivity|]. vm_compute. reflexivity.
Qed.
(** The answer to a connect request. *)
Example nsp_partner_heard_witness : exists s c s', nrun nx0 [EConnect (Some 1025) [1]] = Ok s /\ live s 0 c /\ csrc c = 769 /\ cdest c = 1025 /\
  maps (NCC 769 9 0 2 563 []) c (set_cdst c 9) /\ nstep nx_cfg s (EPkt 1025 false (wire (NCC 769 9 0 2 563 []))) = Ok s'.
Proof.
  destruct (nrun nx0 [EConnect (Some 1025) [1]]) as [s|] eqn:E; [|vm_compute in E; discriminate E]. vm_compute in E. injection E as <-.
  eexists. eexists. eexists. split; [reflexivity|]. split; [split; [reflexivity|discriminate]|]. split; [reflexivity|]. split; [reflexivity|]. split; [right; split; [exact I|right; split; reflexivity]|]. vm_compute. reflexivity.
Qed.
Print Assumptions nsp_table.
Print Assumptions nsp_remote_table.
Print Assumptions nsp_closed_once.
Print Assumptions nsp_closed_forever.
Print Assumptions nsp_data_states.
Print Assumptions nsp_new_silent.
Print Assumptions nsp_one_connection.
Print Assumptions nsp_unknown_link.
Print Assumptions nsp_wrong_peer.
Print Assumptions nsp_early_link.
Print Assumptions nsp_early_confirm.
Print Assumptions nsp_partner_heard.
Print Assumptions nsp_returned_unknown.
Print Assumptions nsp_remote_table_refuted.
Print Assumptions nsp_early_peer_refuted.
