(** Every step of a connection (NspModel.cstep) is a sequence of primitive
    steps; invariants are then checked for the primitive steps only. *)
From Verif Require Import Base Dict ModuloModel NspPktModel NspModel NspFrame.

Definition early (s : cstate) : bool := match s with Sci | Scd | Scr | Scc => true | _ => false end.
Definition over (s : cstate) : bool := match s with Sdi | Sclosed => true | _ => false end.

(** Credit received for data: Data_Subchannel.process_ls 870-886. *)
Definition grant (s : sub) (fcmod fcval : Z) : option sub :=
  let s1 :=
    if flow s =? 2 then
      if (0 <=? fcval) && (maxmsg s + fcval <? maxackseg s + 128) then Some (set_maxmsg s (maxmsg s + fcval)) else None
    else if flow s =? 1 then
      if (maxackseg s <=? maxseg s + fcval) && (maxseg s + fcval <? maxackseg s + 128) then Some (set_maxseg s (maxseg s + fcval)) else None
    else Some s in
  match s1 with None => None | Some s1 => Some (if fcmod =? 0 then s1 else set_xon s1 (fcmod =? 2)) end.
(** A Link Service message takes effect, except that nothing is sent yet. *)
Definition credit (c : conn) (p : npkt) : conn :=
  match p with
  | NLs _ _ _ _ _ m i v => if i =? 0 then match grant (cdata c) m v with Some s => set_cdata c s | None => c end else other_ls c v
  | _ => c
  end.
(** A packet is accepted in sequence: the part of accept_loop before blocked
    segments are sent. *)
Definition acc (c : conn) (ch : chan) (num : Z) (p : npkt) : conn :=
  let s := getc c ch in
  let c1 := emit (putc c ch (set_rcvd (set_ackpending (set_acknum s num) true) (rcvd s + 1))) (ODeliver ch p) in
  match ch with CD => to_sc c1 p false | CO => if is_ls p then credit c1 p else to_sc c1 p false end.
Definition runs (s : cstate) : Prop := s = Srun \/ s = Sdi.
Definition put_entry (c : conn) (ch : chan) (i : nat) (e : txe) : conn :=
  putc c ch (set_pending (getc c ch) (upd i e (pending (getc c ch)))).

Definition chan_of (p : npkt) : chan := match p with NData _ _ _ _ _ _ _ _ _ | NAckData _ _ _ _ => CD | _ => CO end.
Definition is_seg (p : npkt) : bool := is_data p || is_int p || is_ls p.

(** Fields without a role in the transfer of data. *)
Record scal (c c' : conn) : Prop := mk_scal {
  sc_st : cst c' = cst c; sc_src : csrc c' = csrc c; sc_asm : casm c' = casm c; sc_data : cdata c' = cdata c; sc_oth : coth c' = coth c;
  sc_log : clog c' = clog c; sc_seg : 0 <= csegsize c -> 0 <= csegsize c';
  sc_ph : (0 < cphase c -> 0 < cphase c'); sc_dest : cdest c' = cdest c;
  sc_set : cphase c' = cphase c \/ cst c = Sci \/ cst c = Scd }.

Section P.
Variable cfg : ncfg.
(** [arr]: the packet being received, [snd]: whether send_data is being done. *)
Variable arr : option (chan * npkt).
Variable snding : bool.
Definition seg_arrives (ch : chan) : Prop := exists p, arr = Some (ch, p) /\ is_seg p = true.
Definition cc_arrives (f : Z) : Prop := exists d s i z x, arr = Some (CO, NCC d s f i z x).

(** The label lists the acknowledgements that may concern data. *)
Inductive prim : list (chan * Z) -> conn -> conn -> Prop :=
  | P_scal : forall c c', scal c c' -> prim [] c c'
  | P_up : forall c st, cst c = Sci \/ cst c = Scd \/ cst c = Scc -> st = Scd \/ st = Srun -> cst c = Scc \/ st = Scd \/ cc_arrives (flow (cdata c)) ->
      (cst c = Scc -> st = Srun) -> prim [] c (set_cst c st)
  | P_acc2 : forall c, cst c = Scr -> prim [] c (set_cst c Srun)
  | P_accc : forall c d s f i z x c', cst c = Scr -> data_send cfg (set_cst c Scc) (NCC d s f i z x) = Ok c' -> prim [] c c'
  | P_di0 : forall c, (cst c = Scr \/ cst c = Srun /\ pending (cdata c) = []) -> prim [] c (set_cst c Sdi)
  | P_disc : forall c r x c1, cst c = Srun \/ cst c = Sdi -> disc_rej cfg c r x = Ok c1 -> prim [] c (set_cst c1 Sdi)
  | P_close : forall c, cst c <> Sclosed -> prim [] c (conn_close c)
  | P_sc : forall c i r, match i with SData _ => False | _ => True end -> prim [] c (emit c (OSc i r))
  | P_raise : forall c e, prim [] c (emit c (ORaise e))
  | P_tx0 : forall c p c', is_ackhdr p = false -> is_di p = false -> is_ci p = false -> sendmsg c p no_tag = Ok c' -> prim [] c c'
  | P_ackmsg : forall c ch c', send_ack c ch = Ok c' -> prim [] c c'
  | P_hold : forall c ch b, prim [] c (putc c ch (set_hold (getc c ch) b))
  | P_flow : forall c f, cst c = Sci \/ cst c = Scd -> cc_arrives f -> prim [] c (set_cdata c (set_flow (cdata c) f))
  | P_blk : forall c i e c1 c2, nth_error (pending (cdata c)) i = Some e -> is_data (tp e) = true -> tsent e = false ->
      flow_ok cfg (cdata c) e = true -> tx_send c CD i = Ok c1 -> bump c1 CD (segnum (tp e)) = Ok c2 -> prim [] c c2
  | P_blkctl : forall c i e c1, nth_error (pending (cdata c)) i = Some e -> is_data (tp e) = false -> tsent e = false ->
      tx_send c CD i = Ok c1 -> prim [] c c1
  | P_bump : forall c i e c1, nth_error (pending (cdata c)) i = Some e -> is_data (tp e) = true -> tsent e = true ->
      bump c CD (segnum (tp e)) = Ok c1 -> prim [] c c1
  | P_enq : forall c p e s1, snding = true -> is_data p = true -> cst c = Srun -> make_entry cfg c p = (e, s1) ->
      prim [] c (set_cdata c (set_pending s1 (pending (cdata c) ++ [e])))
  | P_int : forall c d s x c1 n, other_send c (NInt d s None None (seqnum (coth c)) x) = Ok (c1, true) -> mod_add 4096 (seqnum (coth c1)) 1 = Ok n ->
      zlen x <= 16 -> cst c = Srun -> prim [] c (set_coth c1 (set_seqnum (coth c1) n))
  | P_keep : forall c d s n c1 b, mod_add 4096 (seqnum (coth c)) 1 = Ok n -> cst c = Srun \/ cst c = Scc ->
      other_send (set_coth c (set_seqnum (coth c) n)) (NLs d s None None (seqnum (coth c)) 0 0 0) = Ok (c1, b) -> prim [] c c1
  | P_ack : forall c ch n c', chan_ack c ch n = Ok c' -> prim [(ch, n)] c c'
  | P_ack0 : forall c c', early (cst c) = true -> chan_ack c CD 0 = Ok c' -> prim [] c c'
  | P_cache : forall c ch p nxt, runs (cst c) -> arr = Some (ch, p) -> chan_of p = ch -> is_seg p = true -> mod_le 4096 (segnum p) (acknum (getc c ch)) = Ok false ->
      mod_add 4096 (acknum (getc c ch)) 1 = Ok nxt -> segnum p <> nxt ->
      prim [] c (putc c ch (set_ooo (getc c ch) (dset Z.eqb (ooo (getc c ch)) (segnum p) p)))
  | P_accn : forall c ch p, runs (cst c) -> arr = Some (ch, p) -> chan_of p = ch -> is_seg p = true -> mod_le 4096 (segnum p) (acknum (getc c ch)) = Ok false ->
      mod_add 4096 (acknum (getc c ch)) 1 = Ok (segnum p) -> prim [] c (acc c ch (segnum p) p)
  | P_acco : forall c ch num q, runs (cst c) -> seg_arrives ch -> mod_add 4096 (acknum (getc c ch)) 1 = Ok num -> dget Z.eqb (ooo (getc c ch)) num = Some q ->
      prim [] c (acc (putc c ch (set_ooo (getc c ch) (ddel Z.eqb (ooo (getc c ch)) num))) ch num q)
  | P_retx : forall c ch i e c1, nth_error (pending (getc c ch)) i = Some e -> ttimer e = true -> ttries e < retransmits cfg ->
      let e1 := set_tsent (set_ttimer e false) false in let c0 := put_entry c ch i e1 in
      (is_data (tp e) = true -> flow_ok cfg (getc c0 ch) e1 = true) -> tx_send c0 ch i = Ok c1 -> prim [] c c1
  | P_wait : forall c ch i e, nth_error (pending (getc c ch)) i = Some e -> ttimer e = true -> ttries e < retransmits cfg -> is_data (tp e) = true ->
      prim [] c (put_entry c ch i (set_tsent (set_ttimer e false) false))
  | P_quit : forall c ch i e, nth_error (pending (getc c ch)) i = Some e -> ttimer e = true -> retransmits cfg <= ttries e -> is_ci (tp e) = true ->
      prim [] c (put_entry c ch i (set_ttimer e false))
  | P_fail : forall c ch i e, nth_error (pending (getc c ch)) i = Some e -> ttimer e = true -> retransmits cfg <= ttries e -> is_ci (tp e) = false ->
      prim [] c (conn_close (to_sc (put_entry c ch i (set_ttimer e false)) (NDI 0 0 UNREACH []) false)).

Inductive star : list (chan * Z) -> conn -> conn -> Prop :=
  | star_nil : forall c, star [] c c
  | star_step : forall l m a b c, prim l a b -> star m b c -> star (l ++ m) a c.

Lemma star_trans : forall l m a b c, star l a b -> star m b c -> star (l ++ m) a c.
Proof. intros l m a b c H. revert c. induction H as [w|l1 l2 x y z H1 H2 IH]; intros c K; [exact K|]. rewrite <- app_assoc. econstructor; eauto. Qed.
Lemma star_one : forall l a b, prim l a b -> star l a b.
Proof. intros l a b H. rewrite <- (app_nil_r l). econstructor; [exact H|constructor]. Qed.
Lemma star_cons0 : forall m a b c, prim [] a b -> star m b c -> star m a c.
Proof. intros m a b c H K. change m with ([] ++ m). econstructor; eauto. Qed.
Lemma star_trans0 : forall m a b c, star [] a b -> star m b c -> star m a c.
Proof. intros m a b c H K. change m with ([] ++ m). eapply star_trans; eauto. Qed.
Lemma star_snoc0 : forall m a b c, star m a b -> star [] b c -> star m a c.
Proof. intros m a b c H K. rewrite <- (app_nil_r m). eapply star_trans; eauto. Qed.
(** An invariant of the primitive steps holds along. *)
Lemma star_inv : forall (I : conn -> Prop), (forall l a b, prim l a b -> I a -> I b) -> forall l a b, star l a b -> I a -> I b.
Proof. intros I S l a b H. induction H as [w|l m a b c H1 H2 IH]; intros Ha; eauto. Qed.

Ltac scal1 := constructor; constructor; try reflexivity; auto; try (intros; assumption).
Lemma to_sc_prim : forall c p r, is_data p = false -> prim [] c (to_sc c p r).
Proof. intros k p r D. destruct p; try discriminate D; apply P_sc; exact I. Qed.
Lemma ctimer_prim : forall c b, prim [] c (set_ctimer c b).
Proof. intros. scal1. Qed.

Lemma upd_nth_same : forall A i (x : A) l y, nth_error l i = Some y -> nth_error (upd i x l) i = Some x.
Proof. intros A. induction i as [|i IH]; intros x [|z l] y H; try discriminate; cbn [nth_error upd] in *; [reflexivity|eauto]. Qed.
Lemma blocked_star : forall n i c c', blocked_loop cfg n i c = Ok c' -> star [] c c'.
Proof.
  induction n as [|n IH]; intros i c c' H; cbn [blocked_loop] in H; [injection H as <-; constructor|].
  destruct (nth_error (pending (cdata c)) i) as [e|] eqn:N; [|injection H as <-; constructor].
  destruct (tsent e) eqn:T; cbn [bind] in H.
  - destruct (is_data (tp e)) eqn:D; cbn [bind] in H; [|eauto].
    destruct (bump c CD (segnum (tp e))) as [c2|] eqn:B; cbn [bind] in H; [|discriminate].
    eapply star_cons0; [eapply P_bump; eauto|eauto].
  - unfold send_qe in H. rewrite N in H. destruct (is_data (tp e)) eqn:D; cbn [andb] in H.
    + destruct (flow_ok cfg (cdata c) e) eqn:F; cbn [negb bind] in H; [|injection H as <-; constructor].
      destruct (tx_send c CD i) as [c1|] eqn:X; cbn [bind] in H; [|discriminate].
      destruct (bump c1 CD (segnum (tp e))) as [c2|] eqn:B; cbn [bind] in H; [|discriminate].
      eapply star_cons0; [eapply P_blk; eauto|eauto].
    + destruct (tx_send c CD i) as [c1|] eqn:X; cbn [bind] in H; [|discriminate].
      eapply star_cons0; [eapply P_blkctl; eauto|eauto].
Qed.
Lemma send_blocked_star : forall c c', send_blocked cfg c = Ok c' -> star [] c c'.
Proof. intros c c' H. eapply blocked_star. exact H. Qed.

Definition tgt (ch : chan) (a : ack) : list (chan * Z) := match a with None => [] | Some (n, q) => [(if is_cross q then cross ch else ch, n)] end.
Lemma base_ack_star : forall c ch a c', base_process_ack c ch a = Ok c' -> star (tgt ch a) c c'.
Proof.
  intros c ch [[n q]|] c' H; cbn [base_process_ack tgt] in *; [|injection H as <-; constructor]. apply star_one. now apply P_ack.
Qed.
Lemma star_frame_st : forall c ch a c', base_process_ack c ch a = Ok c' -> cst c' = cst c.
Proof. intros. eapply fr_st. eapply base_process_ack_frame. eassumption. Qed.
Lemma process_ack_star : forall c ch a c', runs (cst c) -> process_ack cfg c ch a = Ok c' -> star (tgt ch a) c c' /\ runs (cst c').
Proof.
  intros c ch a c' R H. destruct ch; cbn [process_ack] in H.
  - unfold data_process_ack in H. destruct (base_process_ack c CD a) as [c1|] eqn:E; cbn [bind] in H; [|discriminate].
    destruct (send_blocked cfg c1) as [c2|] eqn:B; cbn [bind] in H; [|discriminate].
    assert (S2 : cst c2 = cst c). { rewrite (fr_st _ _ (send_blocked_frame _ _ _ B)). eapply star_frame_st. exact E. }
    assert (K : star (tgt CD a) c c2) by (eapply star_snoc0; [eapply base_ack_star; exact E|eapply send_blocked_star; exact B]).
    destruct (cshut c2); [|injection H as <-; split; [exact K|congruence]].
    destruct (pending (cdata c2)); [|injection H as <-; split; [exact K|congruence]].
    destruct (disc_rej cfg c2 _ _) as [c3|] eqn:D; cbn [bind] in H; [|discriminate]. injection H as <-. split; [|right; reflexivity].
    eapply star_snoc0; [exact K|]. apply star_one. eapply P_disc; [|exact D]. rewrite S2. exact R.
  - split; [eapply base_ack_star; exact H|]. rewrite (star_frame_st _ _ _ _ H). exact R.
Qed.

Lemma process_data_star : forall c0 c ch num p c',
  process_data cfg (putc c ch (set_rcvd (set_ackpending (set_acknum (getc c ch) num) true) (rcvd (getc c ch) + 1))) ch p = Ok c' ->
  prim [] c0 (acc c ch num p) -> star [] c0 c'.
Proof.
  intros c0 c ch num p c' H P. eapply star_cons0; [exact P|]. clear P. unfold process_data in H. unfold acc. destruct ch.
  - injection H as <-. constructor.
  - destruct p; cbn [is_ls]; try (injection H as <-; constructor). unfold credit.
    destruct (_ =? 0) eqn:Z0 in H; rewrite Z0; [|injection H as <-; constructor].
    unfold data_ls in H. set (c2 := emit _ _) in *.
    assert (G : match grant (cdata c2) fcmod fcval with None => Ok c2 | Some s2 => send_blocked cfg (set_cdata c2 s2) end = Ok c').
    { rewrite <- H. unfold grant. destruct (flow (cdata c2) =? 2); [destruct (_ && _); reflexivity|]. destruct (flow (cdata c2) =? 1); [destruct (_ && _); reflexivity|reflexivity]. }
    clear H. destruct (grant (cdata c2) fcmod fcval) as [s2|] eqn:E; [|injection G as <-; constructor]. eapply send_blocked_star; exact G.
Qed.
Lemma process_data_keep : forall c ch p c', process_data cfg c ch p = Ok c' ->
  cst c' = cst c /\ forall k, acknum (getc c' k) = acknum (getc c k) /\ ooo (getc c' k) = ooo (getc c k) /\ rcvd (getc c' k) = rcvd (getc c k).
Proof.
  intros c ch p c' H. unfold process_data in H.
  assert (T : forall q, cst (to_sc (emit c (ODeliver ch p)) q false) = cst c /\ forall k, getc (to_sc (emit c (ODeliver ch p)) q false) k = getc c k).
  { intros q. destruct q; cbn [to_sc]; repeat match goal with |- context [match ?x with [] => _ | _ => _ end] => destruct x end;
      repeat match goal with |- context [if ?x then _ else _] => destruct x end; split; try reflexivity; intros []; reflexivity. }
  destruct ch.
  - injection H as <-. destruct (T p) as [T1 T2]. split; [exact T1|]. intros k. rewrite T2. auto.
  - assert (G : forall c1, frame (emit c (ODeliver CO p)) c1 \/ (exists s2, (rx_same (cdata c) s2) /\ frame (set_cdata (emit c (ODeliver CO p)) s2) c1) ->
        cst c1 = cst c /\ forall k, acknum (getc c1 k) = acknum (getc c k) /\ ooo (getc c1 k) = ooo (getc c k) /\ rcvd (getc c1 k) = rcvd (getc c k)).
    { intros c1 [F|(s2 & (R1 & R2 & R3) & F)]; (split; [rewrite (fr_st _ _ F); reflexivity|]); intros k; destruct (fr_rx _ _ F k) as (A & B & C);
        destruct k; cbn in *; repeat split; congruence. }
    destruct p; try (match type of H with Ok (to_sc _ ?q _) = _ => destruct (T q) as [T1 T2] end; injection H as <-; split; [exact T1|intros k; rewrite T2; auto]; fail).
    destruct (_ =? 0) in H.
    + unfold data_ls in H. apply G.
      repeat match type of H with context [if ?x then _ else _] => destruct x end; cbn [negb] in H;
        try (injection H as <-; left; apply frame_refl); right; eexists; (split; [|eapply send_blocked_frame; exact H]); repeat split.
    + injection H as <-. unfold other_ls. destruct (0 <=? fcval); (split; [reflexivity|]); intros []; repeat split.
Qed.
Lemma accept_loop_star : forall fuel c0 c ch num p c', accept_loop cfg fuel c ch num p = Ok c' ->
  prim [] c0 (acc c ch num p) -> runs (cst c) -> seg_arrives ch -> star [] c0 c' /\ cst c' = cst c.
Proof.
  induction fuel as [|f IH]; intros c0 c ch num p c' H P RN AN; cbn [accept_loop] in H; [discriminate|].
  set (c1 := putc c ch (set_rcvd (set_ackpending (set_acknum (getc c ch) num) true) (rcvd (getc c ch) + 1))) in *.
  destruct (process_data cfg c1 ch p) as [c2|] eqn:E; cbn [bind] in H; [|discriminate].
  pose proof (process_data_keep _ _ _ _ E) as (S & K).
  apply (process_data_star c0 c ch num p c2) in E; [|exact P].
  assert (S2 : cst c2 = cst c) by (rewrite S; destruct ch; reflexivity).
  assert (A : acknum (getc c2 ch) = num). { destruct (K ch) as (-> & _). unfold c1. rewrite getc_putc. reflexivity. }
  destruct (mod_add 4096 num 1) as [n2|] eqn:M; cbn [bind] in H; [|discriminate].
  destruct (dget Z.eqb (ooo (getc c2 ch)) n2) as [q|] eqn:D; [|injection H as <-; auto].
  rewrite <- A in M. assert (RN2 : runs (cst c2)) by (rewrite S2; exact RN). pose proof (P_acco c2 ch n2 q RN2 AN M D) as P2.
  destruct (IH _ _ _ _ _ _ H P2 ltac:(destruct ch; exact RN2) AN) as [I1 I2]. split; [eapply star_trans0; eauto|]. rewrite I2. destruct ch; exact S2.
Qed.

Definition dacks (ch : chan) (p : npkt) : list (chan * Z) := tgt ch (ack1 p) ++ tgt ch (ack2 p).
Lemma sub_recv_star : forall c ch p c', runs (cst c) -> arr = Some (ch, p) -> chan_of p = ch -> is_ackhdr p = true -> sub_recv cfg c ch p = Ok c' -> star (dacks ch p) c c' /\ runs (cst c').
Proof.
  intros c ch p c' R AR CH AH H. unfold sub_recv in H.
  destruct (process_ack cfg c ch (ack1 p)) as [c1|] eqn:E1; cbn [bind] in H; [|discriminate].
  destruct (process_ack cfg c1 ch (ack2 p)) as [c2|] eqn:E2; cbn [bind] in H; [|discriminate].
  destruct (process_ack_star _ _ _ _ R E1) as [K1 R1]. destruct (process_ack_star _ _ _ _ R1 E2) as [K2 R2].
  assert (K : star (dacks ch p) c c2) by (eapply star_trans; eauto). clear K1 K2 E1 E2.
  assert (G : (let s := getc c2 ch in let num := segnum p in
      let* le := mod_le 4096 num (acknum s) in
      if le then send_ack c2 ch
      else
        let* nxt := mod_add 4096 (acknum s) 1 in
        if negb (num =? nxt) then Ok (putc c2 ch (set_ooo s (dset Z.eqb (ooo s) num p)))
        else
          let* c := accept_loop cfg (S (length (ooo s))) c2 ch num p in
          if dly p && (cphase c =? 4) && negb (cshut c) then
            if ackpending (getc c ch) && negb (hold (getc c ch)) then Ok (putc c ch (set_hold (getc c ch) true)) else Ok c
          else if ackpending (getc c ch) then send_ack c ch
          else Ok c) = Ok c' -> is_seg p = true -> star (dacks ch p) c c' /\ runs (cst c')).
  { cbv zeta. intros G SG.
    destruct (mod_le 4096 (segnum p) (acknum (getc c2 ch))) as [le|] eqn:L; cbn [bind] in G; [|discriminate]. destruct le.
    { split; [eapply star_snoc0; [exact K|apply star_one; eapply P_ackmsg; exact G]|]. rewrite (fr_st _ _ (send_ack_frame _ _ _ G)). exact R2. }
    destruct (mod_add 4096 (acknum (getc c2 ch)) 1) as [nxt|] eqn:M; cbn [bind] in G; [|discriminate].
    destruct (segnum p =? nxt) eqn:Q; cbn [negb] in G.
    2:{ injection G as <-. split; [|destruct ch; exact R2]. eapply star_snoc0; [exact K|apply star_one; eapply P_cache; eauto]. intros X. rewrite X, Z.eqb_refl in Q. discriminate. }
    apply Z.eqb_eq in Q. subst nxt.
    destruct (accept_loop cfg _ c2 ch (segnum p) p) as [c3|] eqn:A; cbn [bind] in G; [|discriminate].
    apply (accept_loop_star _ c2) in A as [A S3]; [|now apply P_accn|exact R2|exists p; auto].
    assert (R3 : runs (cst c3)) by (rewrite S3; exact R2).
    assert (K3 : star (dacks ch p) c c3) by (eapply star_snoc0; eauto).
    destruct (dly p && (cphase c3 =? 4) && negb (cshut c3)).
    - destruct (ackpending (getc c3 ch) && negb (hold (getc c3 ch))); injection G as <-; [|auto].
      split; [|destruct ch; exact R3]. eapply star_snoc0; [exact K3|apply star_one; apply P_hold].
    - destruct (ackpending (getc c3 ch)); [|injection G as <-; auto].
      split; [eapply star_snoc0; [exact K3|apply star_one; eapply P_ackmsg; exact G]|]. rewrite (fr_st _ _ (send_ack_frame _ _ _ G)). exact R3. }
  destruct p; try discriminate AH; try (apply G; [exact H|reflexivity]); injection H as <-; auto.
Qed.

Lemma close_star : forall c p r, is_data p = false -> cst c <> Sclosed -> star [] c (conn_close (to_sc c p r)).
Proof.
  intros k p r D N. eapply star_cons0; [apply to_sc_prim; exact D|]. apply star_one. apply P_close. destruct p; try discriminate D; exact N.
Qed.
Ltac closes := match goal with
  | |- star [] ?c (conn_close (emit ?c (OSc (SPkt ?p) ?r))) => apply (close_star c p r)
  | |- _ => apply close_star end.
Lemma sendmsg_st : forall c p g c', sendmsg c p g = Ok c' -> cst c' = cst c.
Proof. intros c p g c' H. exact (fr_st _ _ (sendmsg_frame _ _ _ _ H)). Qed.
Definition eacks (p : npkt) : list (chan * Z) := if is_ackhdr p then dacks (chan_of p) p else [].
Definition pkt_size_ok (p : npkt) : Prop := match p with NCC _ _ _ _ z _ => 0 <= z | _ => True end.

Lemma run_recv_star : forall c p c', cst c = Srun -> arr = Some (chan_of p, p) -> run_recv cfg c p = Ok c' -> star (eacks p) c c'.
Proof.
  intros c p c' R AR H. unfold run_recv in H.
  set (c0 := if 2 <? cphase c then set_ctimer c true else c) in *.
  assert (K : star [] c c0) by (unfold c0; destruct (2 <? cphase c); [apply star_one; apply ctimer_prim|constructor]).
  assert (R0 : cst c0 = Srun) by (unfold c0; destruct (2 <? cphase c); exact R).
  eapply star_trans0; [exact K|]. clearbody c0. clear K R c.
  assert (RR : runs (cst c0)) by (left; exact R0).
  destruct p; cbn [chan_of] in AR; unfold eacks; cbn [is_ackhdr chan_of];
    try (apply (sub_recv_star c0 _ _ c' RR AR eq_refl eq_refl H)); try (injection H as <-; constructor).
  - destruct (2 <? cphase c0); [|injection H as <-; constructor]. apply star_one. eapply P_ackmsg. exact H.
  - destruct (sendmsg _ _ _) as [c1|] eqn:E; cbn [bind] in H; [|discriminate]. injection H as <-.
    pose proof (sendmsg_st _ _ _ _ E) as S1. eapply star_cons0; [apply (to_sc_prim c0 (NDI d s reason data) false); reflexivity|].
    eapply star_cons0; [eapply P_tx0; [| | |exact E]; reflexivity|]. apply star_one. apply P_close. rewrite S1. cbn. congruence.
  - injection H as <-. closes; [reflexivity|congruence].
Qed.

Lemma pop_acked_flow : forall n s s', pop_acked n s = Ok s' -> flow s' = flow s.
Proof.
  induction n as [|n IH]; intros s s' H; cbn [pop_acked] in H; [congruence|]. destruct (pending s); [discriminate|]. apply IH in H. exact H.
Qed.
Lemma chan_ack_flow : forall c n c', chan_ack c CD n = Ok c' -> flow (cdata c') = flow (cdata c).
Proof.
  intros c n c' H. unfold chan_ack in H. cbn [getc] in H. destruct (sub_ack (cdata c) n) as [s1|] eqn:E; cbn [bind putc] in H; [|discriminate]. injection H as <-. cbn [cdata set_cdata].
  unfold sub_ack in E. destruct (pending (cdata c)) as [|e t]; [congruence|]. destruct (_ || _) in E; [|now apply pop_acked_flow in E].
  destruct (mod_lt 4096 n _) as [[]|]; cbn [bind] in E; try congruence. destruct (mod_gt 4096 n _) as [[]|]; cbn [bind] in E; try congruence.
  destruct (mod_sub 4096 n _) as [d|]; cbn [bind] in E; [|congruence]. destruct (mod_add 4096 d 1) as [k|]; cbn [bind] in E; [|congruence]. now apply pop_acked_flow in E.
Qed.
Lemma send_ack_flow : forall c ch c', send_ack c ch = Ok c' -> flow (cdata c') = flow (cdata c).
Proof.
  intros c ch c' H. unfold send_ack in H. destruct (set_acks _ ch true _ _) as [[c1 p1] g] eqn:E. apply set_acks_frame in E as (_ & _ & K).
  destruct (K CD) as (_ & _ & _ & _ & _ & _ & _ & _ & K9 & _). unfold sendmsg in H. destruct (encode p1); cbn [bind] in H; [|discriminate]. injection H as <-.
  cbn [getc] in K9. cbn [emit cdata set_clog]. rewrite K9. destruct ch; reflexivity.
Qed.
Lemma cd_recv_star : forall c p c', cst c = Sci \/ cst c = Scd -> arr = Some (chan_of p, p) -> pkt_size_ok p -> 1 <= phase cfg -> cd_recv cfg c p = Ok c' -> star [] c c'.
Proof.
  intros c p c' S AR Z0 PH H. destruct p; cbn [cd_recv] in H; try (injection H as <-; constructor).
  - set (c1 := setphase cfg (set_cdst c s) info) in *.
    set (c2 := set_csegsize (set_cdata c1 (set_flow (cdata c1) fcopt)) (Z.min segsize MSS)) in *.
    assert (K1 : star [] c c2).
    { eapply star_cons0; [apply (P_flow c fcopt); [exact S|repeat eexists; exact AR]|]. apply star_one. unfold c2, c1, setphase. cbn [pkt_size_ok] in Z0. scal1.
      - cbn. intros _. unfold MSS. lia.
      - cbn. intros _. unfold nspphase. destruct (Z.land info 3 =? 1); destruct (Z.land info 3 =? 0); lia. }
    assert (S2 : cst c2 = cst c) by reflexivity. assert (FL : flow (cdata c2) = fcopt) by reflexivity. clearbody c2. clear c1.
    destruct (chan_ack c2 CD 0) as [c3|] eqn:E; cbn [bind] in H; [|discriminate].
    assert (S3 : cst c3 = cst c) by (rewrite (fr_st _ _ (chan_ack_frame _ _ _ _ E)); exact S2).
    assert (K2 : star [] c2 c3). { apply star_one. apply P_ack0; [|exact E]. rewrite S2. destruct S as [-> | -> ]; reflexivity. }
    destruct (if 2 <? cphase c3 then _ else Ok c3) as [c4|] eqn:E4; cbn [bind] in H; [|discriminate]. injection H as <-.
    rewrite <- (chan_ack_flow _ _ _ E) in FL.
    assert (K3 : star [] c3 c4 /\ cst c4 = cst c /\ flow (cdata c4) = fcopt).
    { destruct (2 <? cphase c3); [|injection E4 as <-; split; [constructor|auto]].
      destruct (send_ack c3 CD) as [c5|] eqn:E5; cbn [bind] in E4; [|discriminate]. injection E4 as <-.
      split; [|split; [cbn; rewrite (fr_st _ _ (send_ack_frame _ _ _ E5)); exact S3|cbn [cdata set_ctimer]; rewrite (send_ack_flow _ _ _ E5); exact FL]].
      eapply star_cons0; [eapply P_ackmsg; exact E5|]. apply star_one. apply ctimer_prim. }
    destruct K3 as (K3 & S4 & FL4). eapply star_trans0; [exact K1|]. eapply star_trans0; [exact K2|]. eapply star_trans0; [exact K3|].
    eapply star_cons0; [apply (to_sc_prim c4 (NCC d s fcopt info segsize data) false); reflexivity|]. apply star_one.
    apply P_up; [|auto| |auto].
    + cbn [to_sc emit cst set_clog]. rewrite S4. tauto.
    + right. right. cbn [to_sc emit cdata set_clog]. rewrite FL4. repeat eexists. exact AR.
  - destruct (sendmsg _ _ _) as [c1|] eqn:E; cbn [bind] in H; [|discriminate]. injection H as <-.
    pose proof (sendmsg_st _ _ _ _ E) as S1.
    eapply star_cons0; [apply (P_scal c (set_cdst c s)); constructor; auto|].
    eapply star_cons0; [apply (to_sc_prim (set_cdst c s) (NDI d s reason data) true); reflexivity|].
    eapply star_cons0; [eapply P_tx0; [| | |exact E]; reflexivity|]. apply star_one. apply P_close. rewrite S1. cbn. destruct S; congruence.
  - injection H as <-. closes; [reflexivity|]. destruct S; congruence.
Qed.

Lemma conn_recv_star : forall c p c', pkt_size_ok p -> 1 <= phase cfg -> arr = Some (chan_of p, p) -> conn_recv cfg c p = Ok c' -> 
  star (match cst c with Srun | Scc => eacks p | _ => [] end) c c'.
Proof.
  intros c p c' Z0 PH AR H. unfold conn_recv in H. destruct (cst c) eqn:S.
  - destruct p; cbn [ci_recv] in H; try (eapply cd_recv_star; [left; exact S|exact AR|exact Z0|exact PH|exact H]).
    + destruct (2 <? phase cfg); [|eapply cd_recv_star; [left; exact S|exact AR|exact Z0|exact PH|exact H]].
      destruct (chan_ack c CD 0) as [c1|] eqn:E; cbn [bind] in H; [|discriminate]. injection H as <-.
      assert (S1 : cst c1 = Sci) by (rewrite (fr_st _ _ (chan_ack_frame _ _ _ _ E)); exact S).
      eapply star_cons0; [apply (P_ack0 c c1); [rewrite S; reflexivity|exact E]|]. apply star_one. apply P_up; auto; congruence.
    + injection H as <-. closes; [reflexivity|congruence].
  - eapply cd_recv_star; [right; exact S|exact AR|exact Z0|exact PH|exact H].
  - destruct p; cbn [cr_recv] in H; try (injection H as <-; constructor).
    destruct (2 <? cphase c); [|injection H as <-; constructor]. apply star_one. eapply P_tx0; [| | |exact H]; reflexivity.
  - unfold cc_recv in H. destruct (if is_ackhdr p then chan_ack c CD 0 else Ok c) as [c1|] eqn:E; cbn [bind] in H; [|discriminate].
    assert (K : star [] c c1 /\ cst c1 = Scc).
    { destruct (is_ackhdr p); [|injection E as <-; split; [constructor|exact S]].
      split; [apply star_one; apply P_ack0; [rewrite S; reflexivity|exact E]|]. rewrite (fr_st _ _ (chan_ack_frame _ _ _ _ E)). exact S. }
    destruct K as [K S1]. eapply star_trans0; [exact K|].
    eapply star_cons0; [apply (P_up c1 Srun); auto|].
    eapply star_cons0; [apply (P_sc (set_cst c1 Srun) SRun false); exact I|].
    eapply run_recv_star; [|exact AR|exact H]. reflexivity.
  - eapply run_recv_star; eauto.
  - destruct p; cbn [di_recv] in H; try (injection H as <-; constructor).
    + destruct (sendmsg _ _ _) as [c1|] eqn:E; cbn [bind] in H; [|discriminate]. injection H as <-.
      eapply star_cons0; [eapply P_tx0; [| | |exact E]; reflexivity|]. apply star_one. apply P_close. rewrite (sendmsg_st _ _ _ _ E). congruence.
    + injection H as <-. apply star_one. apply P_close. congruence.
  - discriminate.
Qed.

(** ** API and timers *)
Lemma data_send_star : forall c p c', snding = true -> is_data p = true -> cst c = Srun -> data_send cfg c p = Ok c' -> star [] c c'.
Proof.
  intros c p c' SN D R H. unfold data_send in H. destruct (make_entry cfg c p) as [e s1] eqn:E.
  set (c1 := set_cdata c (set_pending s1 (pending (cdata c) ++ [e]))) in *.
  eapply star_cons0; [eapply P_enq; eauto|]. fold c1.
  assert (N : nth_error (pending (cdata c1)) (length (pending (cdata c))) = Some e).
  { unfold c1. cbn [cdata set_cdata pending set_pending]. rewrite nth_error_app2 by lia. now rewrite Nat.sub_diag. }
  assert (TE : is_data (tp e) = true /\ tsent e = false) by (destruct p; try discriminate D; injection E as <- <-; auto). destruct TE as [TE TS].
  unfold send_qe in H. rewrite N, TE in H. cbn [andb] in H.
  destruct (flow_ok cfg (cdata c1) e) eqn:F; cbn [negb bind andb] in H; [|injection H as <-; constructor].
  destruct (tx_send c1 CD _) as [c2|] eqn:X; cbn [bind andb] in H; [|discriminate].
  apply star_one. eapply P_blk; eauto.
Qed.
Lemma send_segs_star : forall l c c', snding = true -> cst c = Srun -> send_segs cfg c l = Ok c' -> star [] c c'.
Proof.
  induction l as [|[[bo eo] pl] l IH]; intros c c' SN R H; cbn [send_segs] in H; [injection H as <-; constructor|].
  destruct (data_send cfg c _) as [c1|] eqn:E; cbn [bind] in H; [|discriminate].
  eapply star_trans0; [eapply data_send_star; [exact SN| |exact R|exact E]; reflexivity|]. apply IH; auto.
  rewrite (fr_st _ _ (data_send_frame _ _ _ _ E)). exact R.
Qed.
Lemma api_disc_star : forall c r x c', cst c = Sdi -> api_disc cfg c r x = Ok c' -> star [] c c'.
Proof.
  intros c r x c' S H. unfold api_disc in H. destruct (disc_rej cfg c r x) as [c1|e] eqn:E.
  - injection H as <-. apply star_one. replace c1 with (set_cst c1 Sdi); [eapply P_disc; [right; exact S|exact E]|].
    assert (S1 : cst c1 = Sdi). { unfold disc_rej in E. destruct (_ || _ || _); [discriminate|]. rewrite (fr_st _ _ (data_send_frame _ _ _ _ E)). exact S. }
    destruct c1. cbn in S1. subst. reflexivity.
  - destruct e; try discriminate H. injection H as <-. apply star_one. apply P_raise.
Qed.
Lemma conn_reject_star : forall c r x c', conn_reject cfg c r x = Ok c' -> star [] c c'.
Proof.
  intros c r x c' H. unfold conn_reject in H. destruct (cst c) eqn:S; cbn [cstate_eqb negb] in H; try (injection H as <-; apply star_one; apply P_raise).
  eapply star_cons0; [apply (ctimer_prim c false)|]. eapply star_cons0; [apply (P_di0 (set_ctimer c false)); left; exact S|].
  eapply api_disc_star; [|exact H]. reflexivity.
Qed.

(** The events other than send_data. *)
Definition is_send (e : cev) : bool := match e with VSend _ => true | _ => false end.
Definition ev_acks (c : conn) (e : cev) : list (chan * Z) := match e with VRecv p => match cst c with Srun | Scc => eacks p | _ => [] end | _ => [] end.
Definition ev_ok (e : cev) : Prop := match e with VRecv p => pkt_size_ok p | _ => True end.
Definition ev_arr (e : cev) : option (chan * npkt) := match e with VRecv p => Some (chan_of p, p) | _ => None end.
Lemma step_star : forall c e c', is_send e = false -> ev_ok e -> 1 <= phase cfg -> arr = ev_arr e -> cstep cfg c e = Ok c' -> star (ev_acks c e) c c'.
Proof.
  intros c e c' NS EO PH AR H. destruct e; cbn [cstep is_send ev_acks ev_arr ev_ok] in *; try discriminate NS.
  - apply conn_recv_star; auto.
  - unfold conn_accept in H. destruct (cst c) eqn:S; cbn [cstate_eqb negb] in H; try (injection H as <-; apply star_one; apply P_raise).
    destruct (cphase c =? 2).
    + eapply star_cons0; [apply (P_acc2 c S)|]. eapply star_cons0; [apply (ctimer_prim _ false)|].
      apply star_one. eapply P_tx0; [| | |exact H]; reflexivity.
    + apply star_one. eapply P_accc; eauto.
  - eapply conn_reject_star. exact H.
  - unfold conn_disconnect in H. destruct (cst c) eqn:S; cbn [cstate_eqb negb] in H; try (injection H as <-; apply star_one; apply P_raise).
    destruct (pending (cdata c)) eqn:Q.
    + eapply star_cons0; [apply (P_di0 c); right; auto|]. eapply api_disc_star; [|exact H]. reflexivity.
    + injection H as <-. apply star_one. scal1.
  - unfold conn_abort in H. destruct (cst c) eqn:S; cbn [cstate_eqb negb] in H; try (injection H as <-; apply star_one; apply P_raise).
    destruct (disc_rej cfg c r x) as [c1|er] eqn:E.
    + injection H as <-. apply star_one. eapply P_disc; eauto.
    + destruct er; try discriminate H. injection H as <-. apply star_one. apply P_raise.
  - unfold conn_interrupt in H. destruct (cst c) eqn:S; cbn [cstate_eqb negb orb] in H; try (injection H as <-; apply star_one; apply P_raise).
    destruct (cshut c); [injection H as <-; apply star_one; apply P_raise|].
    destruct (16 <? zlen data) eqn:L; [injection H as <-; apply star_one; apply P_raise|].
    destruct (other_send c _) as [[c1 b]|] eqn:E; cbn [bind] in H; [|discriminate]. destruct b.
    + destruct (mod_add 4096 (seqnum (coth c1)) 1) as [n|] eqn:M; cbn [bind] in H; [|discriminate]. injection H as <-.
      apply star_one. eapply P_int; eauto. lia.
    + injection H as <-. unfold other_send in E. destruct (negb _ && _) in E; [injection E as <-; apply star_one; apply P_raise|].
      destruct (tx_send _ _ _); cbn [bind] in E; [|discriminate]. destruct (bump _ _ _); cbn [bind] in E; discriminate.
  - injection H as <-. apply star_one. scal1.
  - unfold conn_timeout in H. destruct (negb (ctimer c)); [injection H as <-; constructor|].
    eapply star_cons0; [apply (ctimer_prim c false)|]. set (c0 := set_ctimer c false) in *. clearbody c0. clear c.
    destruct (cst c0) eqn:S.
    + injection H as <-. closes; [reflexivity|congruence].
    + injection H as <-. closes; [reflexivity|congruence].
    + destruct (conn_reject cfg c0 OBJ_FAIL []) as [c1|] eqn:E; cbn [bind] in H; [|discriminate]. injection H as <-.
      eapply star_snoc0; [eapply conn_reject_star; exact E|]. apply star_one. apply P_sc. exact I.
    + destruct (mod_add 4096 (seqnum (coth c0)) 1) as [n|] eqn:M; cbn [bind] in H; [|discriminate].
      destruct (other_send _ _) as [[c1 b]|] eqn:E; cbn [bind] in H; [|discriminate]. injection H as <-. apply star_one. eapply P_keep; eauto.
    + destruct (mod_add 4096 (seqnum (coth c0)) 1) as [n|] eqn:M; cbn [bind] in H; [|discriminate].
      destruct (other_send _ _) as [[c1 b]|] eqn:E; cbn [bind] in H; [|discriminate]. injection H as <-. apply star_one. eapply P_keep; eauto.
    + injection H as <-. constructor.
    + discriminate.
  - unfold holdoff in H. destruct (hold (getc c ch)); [|injection H as <-; constructor].
    eapply star_cons0; [apply (P_hold c ch false)|]. apply star_one. eapply P_ackmsg. exact H.
  - unfold retransmit in H. destruct (nth_error (pending (getc c ch)) i) as [e|] eqn:N; [|injection H as <-; constructor].
    destruct (ttimer e) eqn:T; cbn [negb] in H; [|injection H as <-; constructor].
    destruct (retransmits cfg <=? ttries e) eqn:L.
    + destruct (is_ci (tp e)) eqn:CI.
      * injection H as <-. apply star_one. eapply P_quit; eauto. lia.
      * injection H as <-. apply star_one. eapply P_fail; eauto. lia.
    + destruct (negb (is_data (tp e)) || flow_ok cfg _ _) eqn:F.
      * apply star_one. eapply P_retx; eauto; [lia|]. intros D. rewrite D in F. exact F.
      * injection H as <-. apply star_one. apply (P_wait c ch i e); auto; [lia|]. destruct (is_data (tp e)); [reflexivity|discriminate F].
Qed.
End P.
