(** C32: order of reception; C34: segmentation and reassembly. *)
From Verif Require Import Base Dict ModuloModel ModuloProps NspPktModel NspModel NspFrame NspPrim NspRx.

(** * C32 *)
(** An execution of one connection.  Every arriving segment (data, interrupt or
    link service) is a copy of segment number [n] >= 1 of its subchannel, whose
    contents are [f ch n]: it carries n modulo 4096, and n is less than half
    the number space away from the number of packets passed up so far.  Nothing
    else is assumed: segments may be missing, repeated and in any order, and
    everything else that happens to the connection (other packets, the API,
    timers) is arbitrary.  [h] lists the numbers of the segments that arrived
    while the connection takes data. *)
Definition arrival (f : chan -> Z -> npkt) (c : conn) (p : npkt) (n : Z) : Prop :=
  segnum p = n mod 4096 /\ body p = f (chan_of p) n /\
  let k := zlen (delivered (chan_of p) (clog c)) in k - 2048 < n < k + 2048.
Inductive rexec (cfg : ncfg) (f : chan -> Z -> npkt) : list (chan * Z) -> conn -> Prop :=
  | rx_out : forall src dest x c, conn_outbound cfg src dest x = Ok c -> rexec cfg f [] c
  | rx_in : forall src dest p c, conn_inbound cfg src dest p = Ok c -> rexec cfg f [] c
  | rx_seg : forall h c p c' n, rexec cfg f h c -> is_seg p = true -> takes (cst c) = true -> arrival f c p n -> conn_recv cfg c p = Ok c' ->
      rexec cfg f ((chan_of p, n) :: h) c'
  | rx_lost : forall h c p c', rexec cfg f h c -> is_seg p = true -> takes (cst c) = false -> conn_recv cfg c p = Ok c' -> rexec cfg f h c'
  | rx_ev : forall h c e c', rexec cfg f h c -> no_seg (ev_arr e) -> ev_ok e -> cstep cfg c e = Ok c' -> rexec cfg f h c'.

Lemma init_R : forall f c, (forall ch, acknum (getc c ch) = 0 /\ rcvd (getc c ch) = 0 /\ ooo (getc c ch) = []) -> (forall ch, delivered ch (clog c) = []) -> forall on, R f on c.
Proof.
  intros f c H D on ch _. destruct (H ch) as (A & B & C). constructor.
  - lia.
  - rewrite A, B. reflexivity.
  - rewrite D, B. reflexivity.
  - intros k q K. rewrite C in K. discriminate.
Qed.
Definition arrived (c : conn) (h : list (chan * Z)) : Prop := forall ch n, In (ch, n) h -> n < rcvd (getc c ch) + 2048 /\ got c ch n.
Definition both (ch : chan) : bool := true.
Lemma rcvd_len : forall f on c, R f on c -> forall ch, on ch = true -> rcvd (getc c ch) = zlen (delivered ch (clog c)).
Proof.
  intros f on c H ch ON. destruct (H ch ON) as [P _ D _]. apply (f_equal (@length _)) in D. rewrite !map_length in D.
  unfold nat_seq in D. rewrite map_length, seq_length in D. unfold zlen. lia.
Qed.
Lemma kept_arrived : forall c c' h, (forall k, kept c c' k) -> arrived c h -> arrived c' h.
Proof.
  intros c c' h K A ch n I. destruct (A ch n I) as [A1 A2]. destruct (K ch) as [K1 K2]. split; [lia|].
  destruct A2 as [A2|A2]; [left; lia|]. destruct (Z.le_gt_cases n (rcvd (getc c ch))); [left; lia|]. apply K2; [lia|exact A2].
Qed.
Lemma out_init : forall cfg src dest x c, conn_outbound cfg src dest x = Ok c ->
  (forall ch, acknum (getc c ch) = 0 /\ rcvd (getc c ch) = 0 /\ ooo (getc c ch) = []) /\ silent (clog c) /\ casm c = [].
Proof.
  intros cfg src dest x c H. unfold conn_outbound in H. destruct (data_send _ _ _) as [c1|] eqn:E; cbn [bind] in H; [|discriminate]. injection H as <-.
  apply data_send_frame in E. split; [|split].
  - intros ch. destruct (fr_rx _ _ E ch) as (A & B & C). destruct ch; cbn in *; auto.
  - destruct (fr_log _ _ E) as (l & L & T). cbn in L. cbn. rewrite L. now apply txonly_silent.
  - cbn. rewrite (fr_asm _ _ E). reflexivity.
Qed.
Lemma in_init : forall cfg src dest p c, conn_inbound cfg src dest p = Ok c ->
  (forall ch, acknum (getc c ch) = 0 /\ rcvd (getc c ch) = 0 /\ ooo (getc c ch) = []) /\ silent (clog c) /\ casm c = [].
Proof.
  intros cfg src dest p c H. unfold conn_inbound in H. destruct p; try discriminate H.
  set (c0 := setphase _ _ _) in H. destruct (if 2 <? cphase c0 then _ else _) as [c1|] eqn:E; cbn [bind] in H; [|discriminate]. injection H as <-.
  assert (F : frame c0 c1) by (destruct (2 <? cphase c0); [eapply sendmsg_frame; exact E|injection E as <-; apply frame_refl]).
  split; [|split].
  - intros ch. destruct (fr_rx _ _ F ch) as (A & B & C). destruct ch; cbn in *; auto.
  - destruct (fr_log _ _ F) as (l & L & T). cbn in L. cbn. rewrite L. apply silent_app; [now apply txonly_silent|]. split; [intros []; reflexivity|reflexivity].
  - cbn. rewrite (fr_asm _ _ F). reflexivity.
Qed.
Lemma rexec_inv : forall cfg f h c, 1 <= phase cfg -> rexec cfg f h c -> R f both c /\ (over (cst c) = true \/ arrived c h).
Proof.
  intros cfg f h c PH H. induction H as [src dest x c H|src dest p c H|h c p c' n H IH SG T AR E|h c p c' H IH SG T E|h c e c' H IH NS EO E].
  - destruct (out_init _ _ _ _ _ H) as (A & [B _] & _). split; [apply init_R; auto|]. right. intros ch n [].
  - destruct (in_init _ _ _ _ _ H) as (A & [B _] & _). split; [apply init_R; auto|]. right. intros ch n [].
  - destruct IH as [I1 I2]. destruct AR as (A1 & A2 & A3). cbv zeta in A3. rewrite <- (rcvd_len f both c I1) in A3 by reflexivity.
    destruct (recv_R f both cfg c p c' n E T SG eq_refl I1 A1 A2 A3) as [G1 G2]. split; [exact G1|]. destruct G2 as [G2|[G2 G3]]; [left; exact G2|right].
    destruct I2 as [I2|I2]; [destruct (cst c); discriminate|]. intros ch m [X|X].
    + injection X as <- <-. split; [|exact G2]. destruct (G3 (chan_of p)) as [K _]. lia.
    + eapply kept_arrived; eauto.
  - assert (X : c' = c).
    { unfold conn_recv in E. destruct p; try discriminate SG; destruct (cst c) eqn:S; try discriminate T; cbn in E; congruence. }
    subst c'. exact IH.
  - destruct IH as [I1 I2]. apply step_rxq in E; auto. split; [eapply rxq_R; eauto|].
    destruct I2 as [I2|I2]; [left; now apply (rq_over _ _ E)|]. destruct (rxq_kept f both _ _ E) as [K|K]; [left; exact K|right; eapply kept_arrived; eauto].
Qed.

Theorem nsp_in_order : forall cfg f h c, 1 <= phase cfg -> rexec cfg f h c -> forall ch,
  let up := delivered ch (clog c) in
  map body up = map (f ch) (nat_seq (zlen up)) /\
  (over (cst c) = false -> forall n, (forall m, 1 <= m <= n -> In (ch, m) h) -> n <= zlen up).
Proof.
  intros cfg f h c PH H ch up. apply rexec_inv in H as [H1 H2]; [|exact PH]. pose proof (rcvd_len f both c H1 ch eq_refl) as L. fold up in L.
  destruct (H1 ch eq_refl) as [P A D O]. rewrite L in *. split; [exact D|]. intros OV n AL. destruct H2 as [H2|H2]; [congruence|].
  destruct (Z.le_gt_cases n (zlen up)) as [|G]; [assumption|exfalso].
  destruct (H2 ch (zlen up + 1)) as [_ [X|X]]; [apply AL; lia|lia|].
  destruct (dget Z.eqb (ooo (getc c ch)) ((zlen up + 1) mod 4096)) as [q|] eqn:Q; [|congruence].
  destruct (O _ _ Q) as (m & M1 & M2 & _). lia.
Qed.
Print Assumptions nsp_in_order.

(** A connection that receives segments 2, 1, 1 (a repetition) and 3. *)
Definition ex_cfg : ncfg := mk_ncfg 4 20 5 2.
Definition ex_ci : npkt := NCI false 300 0 2 563 [].
Definition ex_f (ch : chan) (n : Z) : npkt := match ch with CD => NData 0 0 None None 0 0 1 1 [n] | CO => NEmpty end.
Definition ex_seg (n : Z) : npkt := NData 200 300 None None (n mod 4096) 0 1 1 [n].
Definition ex_get (r : res conn) : conn := match r with Ok c => c | Err _ => mk_conn Sclosed 0 0 0 false (0, []) [] 0 0 false false new_data new_other [] end.
Definition ex_c0 : conn := ex_get (conn_inbound ex_cfg 200 1025 ex_ci).
Definition ex_c1 : conn := ex_get (cstep ex_cfg ex_c0 (VAccept [])).
Fixpoint ex_run (c : conn) (l : list Z) : conn := match l with [] => c | n :: t => ex_run (ex_get (conn_recv ex_cfg c (ex_seg n))) t end.
Example nsp_in_order_example : exists h, rexec ex_cfg ex_f h (ex_run ex_c1 [2; 1; 1; 3]) /\
  map body (delivered CD (clog (ex_run ex_c1 [2; 1; 1; 3]))) = [ex_f CD 1; ex_f CD 2; ex_f CD 3] /\ (forall m, 1 <= m <= 3 -> In (CD, m) h).
Proof.
  exists [(CD, 3); (CD, 1); (CD, 1); (CD, 2)]. split; [|split; [vm_compute; reflexivity|]].
  - assert (G : forall h c n, rexec ex_cfg ex_f h c -> takes (cst c) = true -> (let k := zlen (delivered CD (clog c)) in k - 2048 < n < k + 2048) ->
        conn_recv ex_cfg c (ex_seg n) = Ok (ex_get (conn_recv ex_cfg c (ex_seg n))) -> rexec ex_cfg ex_f ((CD, n) :: h) (ex_get (conn_recv ex_cfg c (ex_seg n)))).
    { intros h c n H T K E. eapply (rx_seg _ _ h c (ex_seg n)); [exact H|reflexivity|exact T|split; [reflexivity|split; [reflexivity|exact K]]|exact E]. }
    cbn [ex_run]. repeat (apply G; [| | |vm_compute; reflexivity]; [|vm_compute; reflexivity|vm_compute; split; reflexivity]).
    eapply rx_ev with (e := VAccept []); [eapply (rx_in _ _ 200 1025 ex_ci ex_c0); vm_compute; reflexivity|exact I|exact I|vm_compute; reflexivity].
  - intros m H. assert (C : m = 1 \/ m = 2 \/ m = 3) by lia. destruct C as [-> | [-> | -> ]]; cbn; auto.
Qed.

(** Outside the window: two numbers 2048 apart cannot be compared, and the
    TypeError stops the node (modulo.py:62-70, node.py:299-329). *)
Theorem nsp_window_refuted : conn_recv ex_cfg (ex_run ex_c1 []) (ex_seg 2048) = Err EType.
Proof. vm_compute. reflexivity. Qed.
Print Assumptions nsp_window_refuted.

(** * C34 *)
Definition sg := (Z * Z * list Z)%type.
(** The messages in a list of segments: a message ends with a segment flagged "end". *)
Fixpoint assemble (cur : list Z) (l : list sg) : list (list Z) :=
  match l with
  | [] => []
  | (_, e, pl) :: t => if e =? 0 then assemble (cur ++ pl) t else (cur ++ pl) :: assemble [] t
  end.
Fixpoint pieces (cur : list (list Z)) (l : list sg) : list (list Z) :=
  match l with [] => cur | (_, e, pl) :: t => if e =? 0 then pieces (cur ++ [pl]) t else pieces [] t end.
(** A segment is flagged "beginning" when no message is open, and only then. *)
Fixpoint bracketed (open : bool) (l : list sg) : Prop :=
  match l with [] => True | (b, e, _) :: t => (b = 0 <-> open = true) /\ bracketed (e =? 0) t end.
Definition seg3 (p : npkt) : sg := match p with NData _ _ _ _ _ _ b e pl => (b, e, pl) | _ => (0, 0, []) end.

Lemma assemble_snoc : forall l cur b e pl, assemble cur (l ++ [(b, e, pl)]) = assemble cur l ++ (if e =? 0 then [] else [concat (pieces [cur] l) ++ pl]).
Proof.
  assert (G : forall l cur pcs b e pl, concat pcs = cur -> assemble cur (l ++ [(b, e, pl)]) = assemble cur l ++ (if e =? 0 then [] else [concat (pieces pcs l) ++ pl])).
  { induction l as [|[[b0 e0] p0] l IH]; intros cur pcs b e pl E; cbn [app assemble pieces].
    - rewrite E. destruct (e =? 0); reflexivity.
    - destruct (e0 =? 0); [|cbn [app]; f_equal; apply IH; reflexivity]. apply IH. rewrite concat_app, E. cbn [concat]. now rewrite app_nil_r. }
  intros. apply G. cbn [concat]. apply app_nil_r.
Qed.
Lemma assemble_snoc0 : forall l b e pl, assemble [] (l ++ [(b, e, pl)]) = assemble [] l ++ (if e =? 0 then [] else [concat (pieces [] l) ++ pl]).
Proof.
  assert (G : forall l cur pcs b e pl, concat pcs = cur -> assemble cur (l ++ [(b, e, pl)]) = assemble cur l ++ (if e =? 0 then [] else [concat (pieces pcs l) ++ pl])).
  { induction l as [|[[b0 e0] p0] l IH]; intros cur pcs b e pl E; cbn [app assemble pieces].
    - rewrite E. destruct (e =? 0); reflexivity.
    - destruct (e0 =? 0); [|cbn [app]; f_equal; apply IH; reflexivity]. apply IH. rewrite concat_app, E. cbn [concat]. now rewrite app_nil_r. }
  intros. apply G. reflexivity.
Qed.
Lemma pieces_snoc : forall l cur b e pl, pieces cur (l ++ [(b, e, pl)]) = if e =? 0 then pieces cur l ++ [pl] else [].
Proof. induction l as [|[[b0 e0] p0] l IH]; intros cur b e pl; cbn [app pieces]; [reflexivity|]. destruct (e0 =? 0); apply IH. Qed.
Fixpoint is_open (open : bool) (l : list sg) : bool := match l with [] => open | (_, e, _) :: t => is_open (e =? 0) t end.
Lemma bracketed_snoc : forall l o b e pl, bracketed o (l ++ [(b, e, pl)]) <-> bracketed o l /\ (b = 0 <-> is_open o l = true).
Proof.
  induction l as [|[[b0 e0] p0] l IH]; intros o b e pl; cbn [app bracketed is_open]; [tauto|]. rewrite IH. tauto.
Qed.
Lemma is_open_pieces : forall l cur, is_open (match cur with [] => false | _ => true end) l = match pieces cur l with [] => false | _ => true end.
Proof.
  induction l as [|[[b0 e0] p0] l IH]; intros cur; cbn [is_open pieces]; [reflexivity|]. destruct (e0 =? 0).
  - rewrite <- IH. destruct cur; reflexivity.
  - apply (IH []).
Qed.

(** to_sc on one segment. *)
Lemma to_sc_seg : forall c p r l, is_data p = true -> bracketed false (l ++ [seg3 p]) -> casm c = pieces [] l ->
  casm (to_sc c p r) = pieces [] (l ++ [seg3 p]) /\
  exists m, clog (to_sc c p r) = clog c ++ m /\ assemble [] (l ++ [seg3 p]) = assemble [] l ++ sc_msgs m.
Proof.
  intros c p r l D B A. destruct p; try discriminate D. cbn [seg3 to_sc] in *. rewrite pieces_snoc, assemble_snoc0.
  apply bracketed_snoc in B as [_ B]. pose proof (is_open_pieces l []) as IO. rewrite IO in B. rewrite <- A in *.
  destruct (casm c) as [|x t] eqn:CA.
  - assert (bom =? 0 = false) as -> by (destruct B as [B1 _]; apply Z.eqb_neq; intros X; specialize (B1 X); discriminate). cbn [andb].
    destruct (eom =? 0) eqn:EE.
    + split; [reflexivity|]. exists []. rewrite !app_nil_r. split; reflexivity.
    + split; [exact CA|]. eexists. split; [reflexivity|]. reflexivity.
  - destruct (eom =? 0) eqn:EE.
    + split; [reflexivity|]. exists []. rewrite !app_nil_r. split; reflexivity.
    + split; [reflexivity|]. exists [OSc (SData (concat ((x :: t) ++ [pl]))) r]. split; [reflexivity|]. rewrite concat_app. cbn [concat]. rewrite (app_nil_r pl). reflexivity.
Qed.

(** ** The invariant of a connection *)
Definition dsegs (c : conn) : list sg := map seg3 (delivered CD (clog c)).
Record asm_ok (c : conn) : Prop := mk_asm {
  as_data : Forall (fun p => is_data p = true) (delivered CD (clog c));
  as_ooo : forall ch k q, dget Z.eqb (ooo (getc c ch)) k = Some q -> is_seg q = true /\ chan_of q = ch;
  as_msgs : bracketed false (dsegs c) -> sc_msgs (clog c) = assemble [] (dsegs c) /\ casm c = pieces [] (dsegs c) }.
Lemma rxq_asm : forall c c', rxq c c' -> asm_ok c -> asm_ok c'.
Proof.
  intros c c' [Q1 Q2 Q3 Q4 Q5 [l [L [S1 S2]]]] [A B C].
  assert (D : delivered CD (clog c') = delivered CD (clog c)) by (rewrite L, delivered_app, S1, app_nil_r; reflexivity).
  assert (E : dsegs c' = dsegs c) by (unfold dsegs; now rewrite D).
  assert (M : sc_msgs (clog c') = sc_msgs (clog c)) by (rewrite L, sc_msgs_app, S2, app_nil_r; reflexivity).
  constructor; rewrite ?D, ?E, ?M, ?Q4; auto.
  intros ch k q K. destruct (Q3 ch) as [X|[X _]]; rewrite X in K; [eapply B; exact K|discriminate].
Qed.
Lemma bracketed_app : forall l m o, bracketed o (l ++ m) -> bracketed o l.
Proof. induction l as [|[[b e] p] l IH]; intros m o H; cbn [app bracketed] in *; [exact I|]. destruct H as [H1 H2]. split; [exact H1|eauto]. Qed.
Lemma acc_asm : forall c ch num p, asm_ok c -> is_seg p = true -> chan_of p = ch -> asm_ok (acc c ch num p).
Proof.
  intros c ch num p [A B C] SG CH. unfold acc. set (c1 := emit _ _).
  assert (L1 : clog c1 = clog c ++ [ODeliver ch p]) by (unfold c1; destruct ch; reflexivity).
  assert (A1 : casm c1 = casm c) by (unfold c1; destruct ch; reflexivity).
  assert (O1 : forall k, ooo (getc c1 k) = ooo (getc c k)) by (intros k; unfold c1; destruct ch, k; reflexivity).
  clearbody c1. destruct ch.
  - assert (D : is_data p = true) by (destruct p; try discriminate SG; try discriminate CH; reflexivity).
    destruct (to_sc_log c1 p false) as (l & L & DL & G & _).
    assert (DD : delivered CD (clog (to_sc c1 p false)) = delivered CD (clog c) ++ [p]).
    { rewrite L, L1, !delivered_app, DL, app_nil_r. reflexivity. }
    assert (DS : dsegs (to_sc c1 p false) = dsegs c ++ [seg3 p]) by (unfold dsegs; rewrite DD, map_app; reflexivity).
    constructor.
    + rewrite DD. apply Forall_app. split; [exact A|]. constructor; [exact D|constructor].
    + intros k x q K. rewrite G, O1 in K. eapply B; exact K.
    + rewrite DS. intros BR. destruct (C (bracketed_app _ _ _ BR)) as [C1 C2]. rewrite <- A1 in C2.
      destruct (to_sc_seg c1 p false (dsegs c) D BR C2) as (T1 & m & T2 & T3). split; [|exact T1].
      rewrite T2, L1, !sc_msgs_app, C1, T3. cbn [sc_msgs flat_map sc1 app]. rewrite app_nil_r. reflexivity.
  - assert (Q : rxq c1 (if is_ls p then credit c1 p else to_sc c1 p false)).
    { destruct (is_ls p); [apply credit_rxq|]. destruct p; try discriminate CH; try discriminate SG;
        (eapply rxq_same; [intros []; repeat split|reflexivity|auto|reflexivity|split; [intros []; reflexivity|reflexivity]]). }
    apply (rxq_asm _ _ Q). assert (DS : delivered CD (clog c1) = delivered CD (clog c)) by (rewrite L1, delivered_app; cbn [delivered flat_map up1 app]; now rewrite app_nil_r).
    constructor; unfold dsegs; rewrite ?DS; auto.
    + intros k x q K. rewrite O1 in K. eapply B; exact K.
    + intros BR. destruct (C BR) as [C1 C2]. rewrite A1. split; [|exact C2]. rewrite L1, sc_msgs_app. cbn [sc_msgs flat_map sc1 app]. rewrite app_nil_r. exact C1.
Qed.
Lemma asm_ooo : forall c ch d, (forall k q, dget Z.eqb d k = Some q -> is_seg q = true /\ chan_of q = ch) -> asm_ok c -> asm_ok (putc c ch (set_ooo (getc c ch) d)).
Proof.
  intros c ch d H [A B C]. destruct ch; (constructor; [exact A| |exact C]); intros [] k q K; cbn [getc putc set_cdata set_coth cdata coth ooo set_ooo] in K; first [apply (H k q K)|exact (B CD k q K)|exact (B CO k q K)].
Qed.
Lemma prim_asm : forall cfg a b l c c', prim cfg a b l c c' -> asm_ok c -> asm_ok c'.
Proof.
  intros cfg a b l c c' H A. 
  assert (N : no_seg a \/ ~ no_seg a) by (destruct a as [[x p]|]; cbn [no_seg]; [destruct (is_seg p); [right; discriminate|left; reflexivity]|left; exact I]).
  destruct N as [N|N]; [eapply rxq_asm; [eapply prim_rxq; eauto|exact A]|].
  assert (G : prim cfg None b l c c' -> asm_ok c') by (intros X; eapply rxq_asm; [apply (prim_rxq cfg None b l _ _ I X)|exact A]).
  destruct H; try (apply G; econstructor; eauto; fail).
  - destruct A as [A1 A2 A3]. constructor; [exact A1| |exact A3]. intros []; [apply (A2 CD)|apply (A2 CO)].
  - destruct A as [A1 A2 A3]. constructor; [exact A1| |exact A3]. intros []; [apply (A2 CD)|apply (A2 CO)].
  - apply asm_ooo; [|exact A]. intros k q K. rewrite (dget_dset Z.eqb decides_Z) in K. destruct (k =? segnum p); [injection K as <-; auto|]. eapply as_ooo; eauto.
  - apply acc_asm; auto.
  - destruct (as_ooo _ A _ _ _ H2) as [B1 B2]. apply acc_asm; auto. apply asm_ooo; [|exact A].
    intros k q0 K. rewrite (dget_ddel Z.eqb decides_Z) in K. destruct (k =? num); [discriminate|]. eapply as_ooo; eauto.
Qed.
Lemma star_asm : forall cfg a b l c c', star cfg a b l c c' -> asm_ok c -> asm_ok c'.
Proof. intros cfg a b l c c' H. induction H as [w|l m x y z H1 H2 IH]; intros A; [exact A|]. apply IH. eapply prim_asm; eauto. Qed.
Lemma step_asm : forall cfg c e c', ev_ok e -> 1 <= phase cfg -> cstep cfg c e = Ok c' -> asm_ok c -> asm_ok c'.
Proof.
  intros cfg c e c' EO PH H A. destruct (is_send e) eqn:S.
  - destruct e; try discriminate S. eapply rxq_asm; [|exact A]. apply (step_rxq cfg c (VSend data) c'); auto; exact I.
  - eapply star_asm; [|exact A]. eapply (step_star cfg (ev_arr e) false); eauto.
Qed.
Lemma init_asm : forall c, (forall ch, ooo (getc c ch) = []) -> silent (clog c) -> casm c = [] -> asm_ok c.
Proof.
  intros c O [S1 S2] A. constructor.
  - rewrite S1. constructor.
  - intros ch k q K. rewrite O in K. discriminate.
  - intros _. unfold dsegs. rewrite S1, S2, A. split; reflexivity.
Qed.

(** The executions of one connection, without any assumption on what arrives. *)
Inductive cexec (cfg : ncfg) : conn -> Prop :=
  | ce_out : forall src dest x c, conn_outbound cfg src dest x = Ok c -> cexec cfg c
  | ce_in : forall src dest p c, conn_inbound cfg src dest p = Ok c -> cexec cfg c
  | ce_ev : forall c e c', cexec cfg c -> ev_ok e -> cstep cfg c e = Ok c' -> cexec cfg c'.
Lemma cexec_asm : forall cfg c, 1 <= phase cfg -> cexec cfg c -> asm_ok c.
Proof.
  intros cfg c PH H. induction H as [src dest x c H|src dest p c H|c e c' H IH EO E].
  - destruct (out_init _ _ _ _ _ H) as (A & B & D). apply init_asm; auto. intros ch. apply A.
  - destruct (in_init _ _ _ _ _ H) as (A & B & D). apply init_asm; auto. intros ch. apply A.
  - eapply step_asm; eauto.
Qed.

(** ** The theorems *)
(** What segmentation has to do, in terms of the segments only. *)
Definition good_cut (size : Z) (data : list Z) (l : list sg) : Prop :=
  concat (map snd l) = data /\ Forall (fun s => 0 < zlen (snd s) <= size) l /\
  exists n, length l = S n /\ (forall i b e x, nth_error l i = Some (b, e, x) -> (b = if Nat.eqb i 0 then 1 else 0) /\ (e = if Nat.eqb i n then 1 else 0)) /\
    forall i b e x, (i < n)%nat -> nth_error l i = Some (b, e, x) -> zlen x = size.
Lemma cut_good : forall fuel bom size data, (length data <= fuel)%nat -> 1 <= size -> data <> [] ->
  let l := cut fuel bom size data in
  concat (map snd l) = data /\ Forall (fun s => 0 < zlen (snd s) <= size) l /\
  exists n, length l = S n /\ (forall i b e x, nth_error l i = Some (b, e, x) -> (b = if Nat.eqb i 0 then bom else 0) /\ (e = if Nat.eqb i n then 1 else 0)) /\
    forall i b e x, (i < n)%nat -> nth_error l i = Some (b, e, x) -> zlen x = size.
Proof.
  induction fuel as [|f IH]; intros bom size data F SZ N; [destruct data; [congruence|cbn [length] in F; lia]|].
  cbn [cut]. destruct data as [|d data]; [congruence|]. set (D := d :: data) in *. destruct (zlen D <=? size) eqn:L.
  - cbn [map snd concat]. rewrite app_nil_r. split; [reflexivity|]. split; [constructor; [|constructor]; cbn [snd]; unfold D in *; rewrite zlen_cons in *; pose proof (zlen_nonneg _ data); lia|].
    exists 0%nat. split; [reflexivity|]. split.
    + intros [|i] b e x H; cbn in H; [injection H as <- <- <-; auto|destruct i; discriminate].
    + intros i b e x H. lia.
  - assert (LD : size < zlen D) by lia. assert (N2 : from size D <> []).
    { intros E. pose proof (upto_from _ size D) as U. rewrite E, app_nil_r in U. apply (f_equal zlen) in U. rewrite zlen_upto in U by lia. lia. }
    assert (F2 : (length (from size D) <= f)%nat).
    { pose proof (zlen_from _ size D) as U. unfold zlen in *. specialize (U ltac:(lia)). cbn [length] in *. unfold D in *. cbn [length] in *. lia. }
    destruct (IH 0 size (from size D) F2 SZ N2) as (I1 & I2 & n & I3 & I4 & I5). cbv zeta.
    cbn [map snd concat]. split; [rewrite I1; apply upto_from|].
    assert (ZU : zlen (upto size D) = size) by (rewrite zlen_upto; lia).
    split; [constructor; [cbn [snd]; lia|exact I2]|]. exists (S n). split; [cbn [length]; now rewrite I3|]. split.
    + intros [|i] b e x H; cbn [nth_error] in H; [injection H as <- <- <-; auto|]. destruct (I4 i b e x H) as [J1 J2]. split; [|exact J2]. destruct (Nat.eqb i 0); exact J1.
    + intros [|i] b e x H K; cbn [nth_error] in K; [injection K as <- <- <-; exact ZU|]. apply (I5 i b e x); [lia|exact K].
Qed.

Theorem nsp_segmentation : forall size data, 1 <= size -> data <> [] -> good_cut size data (cut (length data) 1 size data).
Proof. intros size data S N. apply cut_good; auto. Qed.
Print Assumptions nsp_segmentation.
Example nsp_segmentation_ex : cut 5 1 2 [10; 11; 12; 13; 14] = [(1, 0, [10; 11]); (0, 0, [12; 13]); (0, 1, [14])].
Proof. reflexivity. Qed.

(** Messages, each with the segment size used for it. *)
Definition segments (m : Z * list Z) : list sg := cut (length (snd m)) 1 (fst m) (snd m).
Definition proper (m : Z * list Z) : Prop := 1 <= fst m /\ snd m <> [].

Lemma run_cut : forall fuel bom size data, (length data <= fuel)%nat -> 1 <= size -> data <> [] -> forall cur pcs rest,
  let l := cut fuel bom size data in
  assemble cur (l ++ rest) = (cur ++ data) :: assemble [] rest /\ pieces pcs (l ++ rest) = pieces [] rest /\
  (bracketed false rest -> bracketed (bom =? 0) (l ++ rest)) /\
  (forall part suff, l = part ++ suff -> suff <> [] -> assemble cur part = []).
Proof.
  induction fuel as [|f IH]; intros bom size data F SZ N cur pcs rest; [destruct data; [congruence|cbn [length] in F; lia]|].
  cbn [cut]. destruct data as [|d data]; [congruence|]. set (D := d :: data) in *. destruct (zlen D <=? size) eqn:L; cbv zeta.
  - cbn [app assemble pieces bracketed Z.eqb]. split; [reflexivity|]. split; [reflexivity|].
    split; [intros B; split; [split; intros X; [subst; reflexivity|apply Z.eqb_eq; exact X]|exact B]|].
    intros [|x part] suff E SN; [reflexivity|]. injection E as _ E. symmetry in E. apply app_eq_nil in E as [_ E]. congruence.
  - assert (LD : size < zlen D) by lia. assert (N2 : from size D <> []).
    { intros E. pose proof (upto_from _ size D) as U. rewrite E, app_nil_r in U. apply (f_equal zlen) in U. rewrite zlen_upto in U by lia. lia. }
    assert (F2 : (length (from size D) <= f)%nat).
    { pose proof (zlen_from _ size D) as U. unfold zlen in *. specialize (U ltac:(lia)). cbn [length] in *. unfold D in *. cbn [length] in *. lia. }
    destruct (IH 0 size (from size D) F2 SZ N2 (cur ++ upto size D) (pcs ++ [upto size D]) rest) as (I1 & I2 & I3 & I4).
    cbn [app assemble pieces bracketed]. change (0 =? 0) with true. cbv iota. rewrite I1, I2. rewrite <- app_assoc, upto_from.
    split; [reflexivity|]. split; [reflexivity|].
    split; [intros B; split; [split; intros X; [subst; reflexivity|apply Z.eqb_eq; exact X]|apply I3; exact B]|].
    intros [|x part] suff E SN; [reflexivity|]. injection E as <- E. cbn [assemble]. change (0 =? 0) with true. cbv iota. eapply I4; eauto.
Qed.
Lemma segments_run : forall m, proper m -> forall rest, assemble [] (segments m ++ rest) = snd m :: assemble [] rest /\ pieces [] (segments m ++ rest) = pieces [] rest /\
  (bracketed false rest -> bracketed false (segments m ++ rest)) /\ (forall part suff, segments m = part ++ suff -> suff <> [] -> assemble [] part = []) /\ segments m <> [].
Proof.
  intros [size data] [S N] rest. cbn [fst snd] in *. unfold segments. cbn [fst snd].
  destruct (run_cut (length data) 1 size data (le_n _) S N [] [] rest) as (A & B & C & D). cbn [app] in A. change (1 =? 0) with false in C.
  do 4 (split; [assumption|]). intros E. destruct (nsp_segmentation size data S N) as (G & _). rewrite E in G. cbn in G. congruence.
Qed.

(** Reassembly yields exactly the messages that were cut, whatever their number
    and sizes; after all segments nothing is left over. *)
Theorem nsp_reassembly : forall msgs, Forall proper msgs ->
  assemble [] (flat_map segments msgs) = map snd msgs /\ pieces [] (flat_map segments msgs) = [] /\ bracketed false (flat_map segments msgs).
Proof.
  induction msgs as [|m msgs IH]; intros H; [cbn; auto|]. inversion H as [|? ? H1 H2]; subst. destruct (IH H2) as (I1 & I2 & I3).
  cbn [flat_map map]. destruct (segments_run m H1 (flat_map segments msgs)) as (A & B & C & _). rewrite A, B, I1, I2. auto.
Qed.
Print Assumptions nsp_reassembly.

(** A prefix of the segments: whole messages, then part of the next one. *)
Lemma prefix_split : forall msgs pre rest, Forall proper msgs -> flat_map segments msgs = pre ++ rest ->
  (rest = [] /\ pre = flat_map segments msgs) \/
  exists k part suff m, (k < length msgs)%nat /\ nth_error msgs k = Some m /\ pre = flat_map segments (firstn k msgs) ++ part /\ segments m = part ++ suff /\ suff <> [].
Proof.
  induction msgs as [|m msgs IH]; intros pre rest H E.
  - cbn [flat_map] in E. symmetry in E. apply app_eq_nil in E as [-> -> ]. left. auto.
  - inversion H as [|? ? H1 H2]; subst. cbn [flat_map] in E.
    destruct (Nat.lt_ge_cases (length pre) (length (segments m))) as [L|L].
    + right. exists 0%nat, pre, (skipn (length pre) (segments m)), m. cbn [length firstn flat_map app nth_error]. split; [lia|]. split; [reflexivity|]. split; [reflexivity|].
      apply (f_equal (firstn (length pre))) in E. rewrite firstn_app, firstn_app, firstn_all, Nat.sub_diag in E. replace (length pre - length (segments m))%nat with 0%nat in E by lia.
      cbn [firstn] in E. rewrite !app_nil_r in E. split; [rewrite <- E at 1; symmetry; apply firstn_skipn|].
      intros X. apply (f_equal (@length _)) in X. rewrite skipn_length in X. cbn in X. lia.
    + assert (P : pre = segments m ++ skipn (length (segments m)) pre).
      { rewrite <- (firstn_skipn (length (segments m)) pre) at 1. f_equal.
        apply (f_equal (firstn (length (segments m)))) in E. rewrite firstn_app, firstn_app, firstn_all, Nat.sub_diag in E. replace (length (segments m) - length pre)%nat with 0%nat in E by lia.
        cbn [firstn] in E. rewrite !app_nil_r in E. congruence. }
      set (pre2 := skipn (length (segments m)) pre) in *. rewrite P, <- app_assoc in E. apply app_inv_head in E.
      destruct (IH pre2 rest H2 E) as [[R1 R2]|(k & part & suff & x & K1 & K2 & K3 & K4 & K5)].
      * left. split; [exact R1|]. cbn [flat_map]. rewrite P, R2. reflexivity.
      * right. exists (S k), part, suff, x. cbn [length firstn flat_map nth_error]. split; [lia|]. split; [exact K2|]. split; [rewrite P, K3, app_assoc; reflexivity|auto].
Qed.
Lemma assemble_whole : forall msgs part, Forall proper msgs -> assemble [] (flat_map segments msgs ++ part) = map snd msgs ++ assemble [] part.
Proof.
  induction msgs as [|m msgs IH]; intros part H; [reflexivity|]. inversion H as [|? ? H1 H2]; subst. cbn [flat_map map app]. rewrite <- app_assoc.
  destruct (segments_run m H1 (flat_map segments msgs ++ part)) as (A & _). rewrite A, (IH _ H2). reflexivity.
Qed.

(** The receiving connection, in any execution: when the data segments it
    passed up are the first ones of the segments of some messages, it has given
    Session Control exactly the messages whose segments are complete, in order. *)
Theorem nsp_reassembled : forall cfg c msgs rest, 1 <= phase cfg -> cexec cfg c -> Forall proper msgs ->
  flat_map segments msgs = map seg3 (delivered CD (clog c)) ++ rest ->
  (rest = [] -> sc_msgs (clog c) = map snd msgs) /\
  exists k, sc_msgs (clog c) = map snd (firstn k msgs) /\
    exists part, map seg3 (delivered CD (clog c)) = flat_map segments (firstn k msgs) ++ part /\
      (part = [] \/ exists m suff, nth_error msgs k = Some m /\ segments m = part ++ suff /\ suff <> []).
Proof.
  intros cfg c msgs rest PH H P E. apply cexec_asm in H; [|exact PH]. destruct H as [_ _ M]. fold (dsegs c) in *.
  destruct (nsp_reassembly msgs P) as (A & _ & B). assert (BR : bracketed false (dsegs c)) by (apply (bracketed_app _ rest); rewrite <- E; exact B).
  destruct (M BR) as [M1 _]. split.
  - intros ->. rewrite app_nil_r in E. rewrite M1, <- E. exact A.
  - destruct (prefix_split msgs _ _ P E) as [[-> R2]|(k & part & suff & m & K1 & K2 & K3 & K4 & K5)].
    + exists (length msgs). rewrite firstn_all. split; [rewrite M1, R2; exact A|]. exists []. rewrite app_nil_r. auto.
    + exists k. assert (PK : Forall proper (firstn k msgs)) by (rewrite <- (firstn_skipn k msgs) in P; apply Forall_app in P; apply P).
      split; [|exists part; split; [exact K3|right; exists m, suff; auto]].
      rewrite M1, K3, assemble_whole by exact PK.
      assert (Pm : proper m) by (rewrite Forall_forall in P; apply P; eapply nth_error_In; exact K2).
      destruct (segments_run m Pm []) as (_ & _ & _ & X & _). rewrite (X part suff K4 K5), app_nil_r. reflexivity.
Qed.
Print Assumptions nsp_reassembled.
(** Two messages, of which the second is only partly received. *)
Definition ex_two : list (Z * list Z) := [(2, [1; 2; 3]); (2, [4; 5; 6; 7; 8])].
Definition ex_pkts : list npkt := [NData 200 300 None None 1 0 1 0 [1; 2]; NData 200 300 None None 3 0 1 0 [4; 5]; NData 200 300 None None 2 0 0 1 [3]].
Fixpoint ex_recv (c : conn) (l : list npkt) : conn := match l with [] => c | p :: t => ex_recv (ex_get (conn_recv ex_cfg c p)) t end.
Example nsp_reassembled_example : exists rest, cexec ex_cfg (ex_recv ex_c1 ex_pkts) /\ Forall proper ex_two /\
  flat_map segments ex_two = map seg3 (delivered CD (clog (ex_recv ex_c1 ex_pkts))) ++ rest /\ rest <> [] /\ sc_msgs (clog (ex_recv ex_c1 ex_pkts)) = [[1; 2; 3]].
Proof.
  exists [(0, 0, [6; 7]); (0, 1, [8])]. split; [|split; [|split; [vm_compute; reflexivity|split; [discriminate|vm_compute; reflexivity]]]].
  - assert (G : forall c p, cexec ex_cfg c -> pkt_size_ok p -> conn_recv ex_cfg c p = Ok (ex_get (conn_recv ex_cfg c p)) -> cexec ex_cfg (ex_get (conn_recv ex_cfg c p))).
    { intros c p H P E. apply (ce_ev ex_cfg c (VRecv p)); assumption. }
    unfold ex_pkts. cbn [ex_recv]. do 3 (apply G; [|exact I|vm_compute; reflexivity]).
    apply (ce_ev ex_cfg ex_c0 (VAccept [])); [|exact I|vm_compute; reflexivity]. apply (ce_in ex_cfg 200 1025 ex_ci). vm_compute. reflexivity.
  - repeat constructor; cbn; try lia; discriminate.
Qed.
