(** Progress of two DDCMP stations (C65): over a link that keeps getting
    messages through, both reach the running state and everything given to
    send is delivered. *)
From Verif Require Import Base DdcmpModel DdcmpProofs DdcmpProps.

(** ** Endless runs *)
Definition at_side (b : bool) (x : sys) : side := if b then fst x else snd x.
(** At each moment something happens at one of the stations (true: the first
    one), as in the runs of C16: an event of its own, or a message to it gets
    lost, arrives, or arrives damaged. *)
Definition drun (qa qb : Z) (x : nat -> sys) (lab : nat -> bool * cmd) : Prop :=
  forall t, own_ok (snd (lab t)) = true /\
    if fst (lab t) then exec1 qa (x t) (snd (lab t)) = Some (x (S t)) else exec1 qb (swap (x t)) (snd (lab t)) = Some (swap (x (S t))).
(** At time t a message of kind P arrives at station b. *)
Definition arrives (x : nat -> sys) (lab : nat -> bool * cmd) (b : bool) (P : msg -> Prop) (t : nat) : Prop :=
  lab t = (b, Arrive) /\ exists m c, outq (at_side (negb b) (x t)) = m :: c /\ P m.
(** Messages of kind P to station b get through: if there are such messages
    on the way again and again, one arrives again and again.  (Any number of
    them can be lost or damaged in between.) *)
Definition gets_through (x : nat -> sys) (lab : nat -> bool * cmd) (b : bool) (P : msg -> Prop) : Prop :=
  forall T, (exists t, (T <= t)%nat /\ arrives x lab b P t) \/
            (exists T', forall t m, (T' <= t)%nat -> In m (outq (at_side (negb b) (x t))) -> ~ P m).
Inductive kind := KStart | KStack | KNak | KRep (num : Z) | KAck (resp : Z) | KData (num : Z).
Definition of_kind (k : kind) (m : msg) : Prop :=
  match k, m with
  | KStart, StartM | KStack, StackM | KNak, NakM _ _ => True
  | KRep i, RepM j | KAck i, AckM j | KData i, DataM _ j _ => i = j
  | _, _ => False
  end.
(** While a station waits for an answer (the timer is running), there will be
    a timeout. *)
Definition waits (s : stn) : Prop :=
  match st s with Istart | Astart => True | Running => n s <> a s | _ => False end.
Definition times_out (x : nat -> sys) (lab : nat -> bool * cmd) (b : bool) : Prop :=
  forall T, exists t, (T <= t)%nat /\ (lab t = (b, Own Timeout) \/ ~ waits (sta (at_side b (x t)))).
Definition dfair (x : nat -> sys) (lab : nat -> bool * cmd) : Prop :=
  forall b, times_out x lab b /\ forall k, gets_through x lab b (of_kind k).

(** ** The counts as functions of the state *)
Definition cN (X : side) : Z := zlen (sent X) - zlen (notsent (sta X)).
Definition cK (X : side) : Z := cN X - ssub (n (sta X)) (a (sta X)).
Definition cR (X : side) : Z := zlen (got X).
Lemma rel_counts : forall q X N K R, 1 <= q <= 255 -> rel q (sta X) N K R (sent X) -> cN X = N /\ cK X = K.
Proof.
  intros q X N K R Hq (C & (W1 & W2) & _). unfold cK. rewrite (pend_eq q Hq _ _ _ _ _ C). unfold cN. rewrite W1. unfold zlen in *. rewrite skipn_length.
  pose proof (rl_k0 _ _ _ _ _ _ C). pose proof (rl_kn _ _ _ _ _ _ C). lia.
Qed.
Definition known (qa qb : Z) (x : sys) : Prop :=
  let (A, B) := x in
  good_side qa A (cN A) (cK A) (cR A) /\ good_side qb B (cN B) (cK B) (cR B) /\
  chan qa (sent A) (outq A) (cR B) (cK B) (cN A) (cR A) /\ chan qb (sent B) (outq B) (cR A) (cK A) (cN B) (cR B) /\
  handshake A B /\ handshake B A /\
  got B = firstn (Z.to_nat (cR B)) (sent A) /\ got A = firstn (Z.to_nat (cR A)) (sent B).
Lemma inv_known : forall qa qb x, 1 <= qa <= 255 -> 1 <= qb <= 255 -> sysinv qa qb x -> known qa qb x.
Proof.
  intros qa qb (A, B) Ha Hb (Na & Ka & Ra & Nb & Kb & Rb & GA & GB & CA & CB & HA & HB & GTB & GTA).
  destruct GA as (RA & FA & XA). destruct GB as (RB & FB & XB).
  destruct (rel_counts _ _ _ _ _ Ha RA) as (<- & <-). destruct (rel_counts _ _ _ _ _ Hb RB) as (<- & <-).
  pose proof (chan_le _ _ _ _ _ _ _ CA) as (L1 & L2). pose proof (chan_le _ _ _ _ _ _ _ CB) as (L3 & L4).
  destruct RA as (CoA & (WA1 & WA2) & WA3). destruct RB as (CoB & (WB1 & WB2) & WB3).
  assert (E1 : cR A = Ra). { unfold cR. rewrite GTA. unfold zlen in *. rewrite firstn_length. pose proof (rl_r0 _ _ _ _ _ _ CoA). lia. }
  assert (E2 : cR B = Rb). { unfold cR. rewrite GTB. unfold zlen in *. rewrite firstn_length. pose proof (rl_r0 _ _ _ _ _ _ CoB). lia. }
  subst Ra Rb. cbn [known]. unfold good_side, rel, waiting. tauto.
Qed.

(** ** One step *)
Definition plain (e : event) : Prop := match e with Restart | Lost | Recv StartM | Recv (MaintM _) => False | _ => True end.
Lemma step_grows : forall q s N K R S e s' o, 1 <= q <= 255 -> rel q s N K R S -> st s = Running -> ackflag s = false -> plain e ->
  step q s e = Ok (s', o) -> exists N' K', rel q s' N' K' (R + zlen (delivers o)) (S ++ accepted s e) /\ N <= N' /\ K <= K' /\ st s' = Running.
Proof.
  intros q s N K R S e s' o Hq HR Hs Ha Hp E. pose proof HR as (C & _). pose proof (rl_kn _ _ _ _ _ _ C) as KN.
  assert (GS : forall K' R' D, accepted s e = [] -> K <= K' -> R' = R + zlen D -> good_step q s N K R S K' R' D (step q s e) ->
    exists N' K', rel q s' N' K' (R + zlen (delivers o)) (S ++ accepted s e) /\ N <= N' /\ K <= K' /\ st s' = Running).
  { intros K' R' D HA HK HD [(s1 & o1 & N1 & E1 & R1 & (P1 & _) & D1 & S1 & _ & A1)]. rewrite E in E1. injection E1 as <- <-. exists N1, K'. rewrite HA, app_nil_r, D1, <- HD. split; [exact R1|]. split; [lia|]. split; [lia|congruence]. }
  pose proof (ackto_range K N) as AR. destruct e as [| | | |m|code resp|d]; cbn [plain] in Hp; try contradiction.
  - apply (GS K R []); [reflexivity|lia|unfold zlen; cbn; lia|]. cbn [step]. rewrite Hs. apply good_finish; auto. apply pushes_nil; lia.
  - apply (GS K R []); [reflexivity|lia|unfold zlen; cbn; lia|]. apply running_timeout; auto.
  - assert (ES : step q s (Recv m) = running_recv q s m) by (cbn [step]; rewrite Hs; reflexivity).
    destruct m as [resp num d|resp|code resp|num| | |d]; try contradiction.
    + apply (GS (ackto K N resp) (if num =? (R + 1) mod 256 then R + 1 else R) (if num =? (R + 1) mod 256 then [d] else [])); [reflexivity|apply AR; auto|unfold zlen; destruct (num =? (R + 1) mod 256); cbn; lia|].
      rewrite ES. apply running_data; auto.
    + apply (GS (ackto K N resp) R []); [reflexivity|apply AR; auto|unfold zlen; cbn; lia|]. rewrite ES. apply running_ack; auto.
    + apply (GS (ackto K N resp) R []); [reflexivity|apply AR; auto|unfold zlen; cbn; lia|]. rewrite ES. apply running_nak; auto.
    + apply (GS K R []); [reflexivity|lia|unfold zlen; cbn; lia|]. rewrite ES. apply running_rep; auto.
    + apply (GS K R []); [reflexivity|lia|unfold zlen; cbn; lia|]. rewrite ES. apply running_stack; auto.
  - apply (GS (match resp with Some x => ackto K N x | None => K end) R []); [reflexivity|destruct resp; [apply AR; auto|lia]|unfold zlen; cbn; lia|]. apply running_err; auto.
  - destruct (send_ok q Hq s N K R S d HR Hs Ha) as (s1 & o1 & N1 & E1 & R1 & (P1 & _) & D1 & S1 & _ & A1).
    cbn [step] in E. rewrite E in E1. injection E1 as <- <-. exists N1, K. cbn [accepted]. rewrite Hs, D1. unfold zlen at 1. cbn [length]. rewrite Z.add_0_r. split; [exact R1|]. split; [lia|]. split; [lia|congruence].
Qed.
(** The states only move forward. *)
Definition rank (s : stn) : Z := match st s with Off => 0 | Istart => 1 | Astart => 2 | Running => 3 | Maint => 4 end.
Lemma step_forward : forall q s N K R S e s' o, 1 <= q <= 255 -> rel q s N K R S -> ackflag s = false -> st s <> Running -> st s <> Maint -> e <> Restart -> e <> Lost -> (forall p, e <> Recv (MaintM p)) ->
  step q s e = Ok (s', o) ->
  rank s <= rank s' /\
  (st s = Istart -> (e = Timeout -> In StartM (txs o)) /\ (e = Recv StartM -> st s' = Astart) /\ (e = Recv StackM -> st s' = Running)) /\
  (st s = Astart -> (e = Timeout -> In StackM (txs o)) /\ (e = Recv StackM \/ e = Recv (AckM 0) -> st s' = Running)).
Proof.
  intros q s N K R S e s' o Hq HR Ha NR NM N1 N2 N3 E.
  assert (ENT : running_state s true = (s', o) -> st s' = Running).
  { intros X. destruct (running_state_ok q s true N K R S HR) as (s1 & o1 & E1 & R1 & P1 & D1 & S1 & _). rewrite X in E1. injection E1 as <- <-. auto. }
  assert (EN2 : forall m, (exists resp, m = AckM resp) \/ (exists resp num d, m = DataM resp num d) ->
    (let (s0, o1) := running_state s false in let* (s1, o2) := running_recv q s0 m in Ok (s1, o1 ++ o2)) = Ok (s', o) -> st s' = Running).
  { intros m Hm X. destruct (running_state_ok q s false N K R S HR) as (s1 & o1 & E1 & R1 & P1 & D1 & S1 & A1 & _). rewrite E1 in X. specialize (A1 Ha).
    destruct Hm as [(resp & ->)|(resp & num & d & ->)];
      [destruct (running_ack q Hq s1 N K R S resp R1 S1 A1) as [(s2 & o2 & N2' & E2 & _ & _ & _ & S2 & _)]|destruct (running_data q Hq s1 N K R S resp num d R1 S1 A1) as [(s2 & o2 & N2' & E2 & _ & _ & _ & S2 & _)]];
      rewrite E2 in X; cbn [bind] in X; injection X as <- _; congruence. }
  assert (SND : forall d, send q s d false = Ok (s', o) -> s' = s).
  { intros d X. unfold send, is_running in X. destruct (st s); try (injection X as <- _; reflexivity). contradiction. }
  unfold rank. destruct (st s) eqn:Hs; try contradiction.
  - split; [destruct (st s'); lia|]. split; discriminate.
  - destruct e as [| | | |m|code resp|d]; try contradiction; cbn [step] in E; try rewrite Hs in E.
    + injection E as <- <-. rewrite Hs. split; [lia|]. split; [intros _|discriminate]. repeat split; discriminate.
    + injection E as <- <-. rewrite Hs. split; [lia|]. split; [intros _|discriminate]. split; [left; reflexivity|]. split; discriminate.
    + destruct m as [resp num d|resp|code resp|num| | |d]; try (destruct (N3 d); reflexivity); try (injection E as <- <-; cbn [set_st st]; rewrite ?Hs; split; [lia|]; split; [intros _|discriminate]; repeat split; try discriminate; reflexivity).
      injection E as E. rewrite (ENT E). split; [lia|]. split; [intros _|discriminate]. repeat split; discriminate.
    + injection E as <- <-. rewrite Hs. split; [lia|]. split; [intros _|discriminate]. repeat split; discriminate.
    + rewrite (SND _ E), Hs. split; [lia|]. split; [intros _|discriminate]. repeat split; discriminate.
  - destruct e as [| | | |m|code resp|d]; try contradiction; cbn [step] in E; try rewrite Hs in E.
    + injection E as <- <-. rewrite Hs. split; [lia|]. split; [discriminate|intros _]. split; [discriminate|]. intros [X|X]; discriminate X.
    + injection E as <- <-. rewrite Hs. split; [lia|]. split; [discriminate|intros _]. split; [left; reflexivity|]. intros [X|X]; discriminate X.
    + destruct m as [resp num d|resp|code resp|num| | |d]; try (destruct (N3 d); reflexivity);
        try (injection E as <- <-; cbn [set_st st]; rewrite ?Hs; split; [lia|]; split; [discriminate|intros _]; split; [discriminate|]; intros [X|X]; discriminate X).
      * destruct (resp =? 0); [rewrite (EN2 _ ltac:(right; eauto) E)|injection E as <- <-; rewrite Hs]; (split; [lia|]; split; [discriminate|intros _]; split; [discriminate|]; intros [X|X]; discriminate X).
      * destruct (Z.eqb_spec resp 0) as [->|Z0]; [rewrite (EN2 _ ltac:(left; eauto) E)|injection E as <- <-; rewrite Hs]; (split; [lia|]; split; [discriminate|intros _]; split; [discriminate|]); [auto|].
        intros [X|X]; [discriminate X|]. injection X as X. contradiction.
      * injection E as E. rewrite (ENT E). split; [lia|]. split; [discriminate|intros _]. split; [discriminate|auto].
    + injection E as <- <-. rewrite Hs. split; [lia|]. split; [discriminate|intros _]. split; [discriminate|]. intros [X|X]; discriminate X.
    + rewrite (SND _ E), Hs. split; [lia|]. split; [discriminate|intros _]. split; [discriminate|]. intros [X|X]; discriminate X.
Qed.
(** What a running station sends. *)
Lemma sends_rep : forall q s s' o, st s = Running -> step q s Timeout = Ok (s', o) -> In (RepM (n s)) (txs o).
Proof.
  intros q s s' o Hs E. cbn [step] in E. rewrite Hs in E. unfold send_rep, then_finish, finish in E. destruct (ackflag s); injection E as <- <-; left; reflexivity.
Qed.
Lemma answers_rep : forall q s k s' o, st s = Running -> step q s (Recv (RepM k)) = Ok (s', o) ->
  if k =? r s then In (AckM (r s)) (txs o) else In (NakM 3 (r s)) (txs o).
Proof.
  intros q s k s' o Hs E. cbn [step] in E. rewrite Hs in E. cbn [running_recv] in E. destruct (k =? r s).
  - injection E as <- <-. left. reflexivity.
  - unfold send_nak, then_finish, finish in E. cbn [set_ack ackflag] in E. injection E as <- <-. left. reflexivity.
Qed.
Lemma answers_stack : forall q s s' o, st s = Running -> step q s (Recv StackM) = Ok (s', o) -> In (AckM (r s)) (txs o).
Proof. intros q s s' o Hs E. cbn [step] in E. rewrite Hs in E. injection E as <- <-. left. reflexivity. Qed.
Lemma txs_in : forall m o, In (Tx m) o -> In m (txs o).
Proof. induction o as [|x o IH]; intros H; [destruct H|]. destruct H as [->|H]; [left; reflexivity|]. destruct x; cbn [txs]; auto. right. auto. Qed.
Lemma answers_nak : forall q s N K R S code p s' o, 1 <= q <= 255 -> rel q s N K R S -> st s = Running -> K <= p <= N ->
  step q s (Recv (NakM code (p mod 256))) = Ok (s', o) -> forall i, p < i <= N -> exists d, In (DataM (r s) (i mod 256) d) (txs o).
Proof.
  intros q s N K R S code p s' o Hq HR Hs Hp E i Hi. cbn [step] in E. rewrite Hs in E. cbn [running_recv] in E.
  assert (Hrun : is_running s = true) by (unfold is_running; rewrite Hs; reflexivity). pose proof HR as (C & _). pose proof (rl_win _ _ _ _ _ _ C) as W.
  destruct (process_ack_ok q Hq s N K R S (p mod 256) true HR Hrun) as (s1 & o1 & N1 & g & E1 & R1 & F1 & (P1 & _) & V1 & _ & G & Z1).
  rewrite E1 in E. cbn [bind] in E. cbv beta iota in E. rewrite ackto_exact in R1 by lia. rewrite Zminus_mod_idemp_l, Z.mod_small in G by lia.
  replace (negb (N - K <? p - K)) with true in G by lia. subst g. rewrite (Z1 eq_refl) in *. unfold retransmit in E. pose proof R1 as (C1 & _).
  rewrite (pend_eq q Hq _ _ _ _ _ C1), (rl_a _ _ _ _ _ _ C1) in E. pose proof (rl_win _ _ _ _ _ _ C1) as W1.
  destruct (retransmit_ok q Hq (Z.to_nat (N1 - p)) s1 N1 p R S p R1) as (s2 & o2 & E2 & R2 & F2 & P2 & V2 & L2); try lia.
  rewrite E2 in E. cbn [bind] in E. unfold then_finish in E. destruct (finish s2) as (s3, o3). injection E as <- <-. cbn [app].
  assert (Hk : (Z.to_nat (i - p - 1) < Z.to_nat (N1 - p))%nat) by lia.
  pose proof (F2_length _ _ _ _ _ L2) as Ln. rewrite map_length, seq_length in Ln.
  destruct (nth_error o2 (Z.to_nat (i - p - 1))) as [y|] eqn:Ey; [|apply nth_error_None in Ey; lia].
  destruct (Forall2_nth _ _ _ _ _ _ _ L2 Ey) as (j & Ej & d & -> & Sd). rewrite nth_error_map in Ej. rewrite (nth_error_nth' _ O) in Ej by (rewrite seq_length; exact Hk).
  rewrite seq_nth in Ej by exact Hk. cbn [option_map] in Ej. injection Ej as <-. exists d. rewrite txs_app. apply in_or_app. left. apply txs_in.
  apply nth_error_In in Ey. destruct F1 as (_ & Fr & _). rewrite Fr in Ey. replace i with (p + 1 + Z.of_nat (0 + Z.to_nat (i - p - 1))) at 1 by lia. exact Ey.
Qed.
Lemma answers_ack : forall q s N K R S p s' o, 1 <= q <= 255 -> rel q s N K R S -> st s = Running -> ackflag s = false -> K <= p <= N ->
  step q s (Recv (AckM (p mod 256))) = Ok (s', o) -> exists N', rel q s' N' p R S.
Proof.
  intros q s N K R S p s' o Hq HR Hs Ha Hp E. pose proof HR as (C & _). pose proof (rl_win _ _ _ _ _ _ C) as W.
  destruct (running_ack q Hq s N K R S (p mod 256) HR Hs Ha) as [(s1 & o1 & N1 & E1 & R1 & _)]. cbn [step] in E. rewrite Hs in E. rewrite E in E1. injection E1 as <- <-.
  rewrite ackto_exact in R1 by lia. eauto.
Qed.
Lemma answers_data : forall q s N K R S resp d s' o, 1 <= q <= 255 -> rel q s N K R S -> st s = Running -> ackflag s = false ->
  step q s (Recv (DataM resp ((R + 1) mod 256) d)) = Ok (s', o) -> delivers o = [d].
Proof.
  intros q s N K R S resp d s' o Hq HR Hs Ha E. destruct (running_data q Hq s N K R S resp ((R + 1) mod 256) d HR Hs Ha) as [(s1 & o1 & N1 & E1 & _ & _ & D1 & _)].
  cbn [step] in E. rewrite Hs in E. rewrite E in E1. injection E1 as <- <-. rewrite Z.eqb_refl in D1. exact D1.
Qed.

(** A step of the system, seen by the station at which it happens. *)
Lemma exec_inv : forall q A B c y, own_ok c = true -> exec1 q (A, B) c = Some y ->
  (exists k, c = Lose k /\ y = (A, set_outq B (firstn k (outq B) ++ skipn (S k) (outq B)))) \/
  exists e s' o c', step q (sta A) e = Ok (s', o) /\ y = (after A e s' o, set_outq B c') /\ e <> Restart /\ e <> Lost /\
    (forall m, e = Recv m -> outq B = m :: c') /\
    (c = Arrive -> exists m, outq B = m :: c' /\ e = Recv m) /\ (forall e0, c = Own e0 -> e = e0).
Proof.
  intros q A B c y HO E. cbn [exec1] in E.
  assert (ACT : forall e A', do_act q A e = Some A' -> exists s' o, step q (sta A) e = Ok (s', o) /\ A' = after A e s' o).
  { intros e A'. unfold do_act. destruct (step q (sta A) e) as [(s', o)|] eqn:ES; [|discriminate]. intros X. injection X as <-. eauto. }
  destruct c as [e|k| |code|code].
  - right. destruct (do_act q A e) as [A'|] eqn:ED; [|discriminate E]. destruct (ACT _ _ ED) as (s' & o & E1 & E2). exists e, s', o, (outq B). split; [exact E1|].
    injection E as <-. split; [rewrite E2, set_outq_id; reflexivity|]. destruct e; try discriminate HO; repeat (split; [discriminate|]); intros ? X; injection X as <-; reflexivity.
  - left. exists k. split; [reflexivity|]. destruct (outq B); injection E as <-; reflexivity.
  - right. destruct (outq B) as [|m c] eqn:EO; [discriminate E|]. destruct (do_act q A (Recv m)) as [A'|] eqn:ED; [|discriminate E]. destruct (ACT _ _ ED) as (s' & o & E1 & E2).
    exists (Recv m), s', o, c. split; [exact E1|]. injection E as <-. split; [rewrite E2; reflexivity|]. split; [discriminate|]. split; [discriminate|]. split; [intros m' X; injection X as <-; reflexivity|]. split; [eauto|discriminate].
  - right. destruct (outq B) as [|m c] eqn:EO; [discriminate E|]. destruct (do_act q A (RErr code None)) as [A'|] eqn:ED; [|discriminate E]. destruct (ACT _ _ ED) as (s' & o & E1 & E2).
    exists (RErr code None), s', o, c. split; [exact E1|]. injection E as <-. split; [rewrite E2; reflexivity|]. repeat (split; [discriminate|]). discriminate.
  - right. destruct (outq B) as [|m c] eqn:EO; [discriminate E|]. destruct m as [resp num d|resp|code' resp|num| | |d]; try discriminate E.
    destruct (do_act q A (RErr code (Some resp))) as [A'|] eqn:ED; [|discriminate E]. destruct (ACT _ _ ED) as (s' & o & E1 & E2).
    exists (RErr code (Some resp)), s', o, c. split; [exact E1|]. injection E as <-. split; [rewrite E2; reflexivity|]. repeat (split; [discriminate|]). discriminate.
Qed.
(** What happens at station A leaves B alone and does not take anything back. *)
Definition grows (A B A' B' : side) : Prop :=
  sta B' = sta B /\ sent B' = sent B /\ got B' = got B /\ prefix (sent A) (sent A') /\
  cN A <= cN A' /\ cK A <= cK A' /\ cR A <= cR A' /\ rank (sta A) <= rank (sta A').
Lemma prefix_app : forall X (a b : list X), prefix a (a ++ b). Proof. intros. exists b. reflexivity. Qed.
Lemma cR_after : forall X e s' o, cR (after X e s' o) = cR X + zlen (delivers o).
Proof. intros. unfold cR, after, zlen. cbn [got]. rewrite app_length. lia. Qed.
Lemma zlen_nonneg : forall X (l : list X), 0 <= zlen l. Proof. intros. unfold zlen. lia. Qed.
Lemma step_sys : forall qa qb A B c A' B', 1 <= qa <= 255 -> 1 <= qb <= 255 -> sysinv qa qb (A, B) -> own_ok c = true -> exec1 qa (A, B) c = Some (A', B') ->
  sysinv qa qb (A', B') /\ grows A B A' B'.
Proof.
  intros qa qb A B c A' B' Ha Hb HI HO E.
  assert (HI' : sysinv qa qb (A', B')).
  { destruct (exec1_astep qa (A, B) c _ HO E) as [H|(k & _ & H)]; [eapply astep_inv; eauto|]. rewrite H. exact HI. }
  split; [exact HI'|]. pose proof (inv_known _ _ _ Ha Hb HI) as (GA & GB & CA & CB & HA & HB & GTB & GTA). pose proof (inv_known _ _ _ Ha Hb HI') as (GA' & _).
  destruct (exec_inv _ _ _ _ _ HO E) as [(k & _ & Ey)|(e & s' & o & c' & Es & Ey & N1 & N2 & HM & _)]; injection Ey as -> ->.
  - unfold grows. cbn [set_outq sta sent got]. repeat (split; [reflexivity|]). split; [exists []; rewrite app_nil_r; reflexivity|lia].
  - unfold grows. cbn [set_outq sta sent got]. repeat (split; [reflexivity|]). split; [apply prefix_app|]. pose proof GA as (HR & HF & HN). pose proof GA' as (HR' & _).
    assert (NMt : forall p, e <> Recv (MaintM p)).
    { intros p ->. rewrite (HM _ eq_refl) in CB. destruct CB as (h & p' & _ & _ & X & _). destruct X. }
    destruct (is_running (sta A)) eqn:ER.
    + assert (Hs : st (sta A) = Running) by (unfold is_running in ER; destruct (st (sta A)); auto; discriminate ER).
      assert (NSt : e <> Recv StartM).
      { intros ->. specialize (HM _ eq_refl). destruct HB as (c1 & c2 & EQ & F1 & F2 & X & Y). destruct (Y Hs) as (-> & _). rewrite HM in EQ. cbn [app] in EQ. rewrite <- EQ in F2. inversion F2. congruence. }
      assert (Pl : plain e). { destruct e as [| | | |m|? ?|d]; cbn [plain]; auto. destruct m; auto. destruct (NMt payload). reflexivity. }
      destruct (step_grows qa (sta A) _ _ _ _ e s' o Ha HR Hs HF Pl Es) as (N' & K' & R' & L1 & L2 & S').
      destruct (rel_counts qa (after A e s' o) N' K' _ Ha R') as (-> & ->). rewrite cR_after. pose proof (zlen_nonneg _ (delivers o)). split; [lia|]. split; [lia|]. split; [lia|].
      cbn [after sta]. unfold rank. rewrite Hs, S'. lia.
    + assert (NR : st (sta A) <> Running) by (intros X; unfold is_running in ER; rewrite X in ER; discriminate ER). destruct (HN NR) as (-> & -> & -> & _).
      pose proof HR' as (C' & _). pose proof (rl_k0 _ _ _ _ _ _ C'). pose proof (rl_kn _ _ _ _ _ _ C'). pose proof (rl_r0 _ _ _ _ _ _ C').
      split; [lia|]. split; [lia|]. split; [lia|]. cbn [after sta]. apply (step_forward qa (sta A) _ _ _ _ e s' o Ha HR HF NR (not_maint _ _ HA) N1 N2 NMt Es).
Qed.

(** ** Runs *)
Lemma drun_swap : forall qa qb x lab, drun qa qb x lab -> drun qb qa (fun t => swap (x t)) (fun t => (negb (fst (lab t)), snd (lab t))).
Proof.
  intros qa qb x lab H t. specialize (H t). cbn [fst snd]. destruct (lab t) as ([|], c); cbn [negb fst snd] in *; [|exact H].
  assert (SS : forall y, swap (swap y) = y) by (intros (u, v); reflexivity). rewrite !SS. exact H.
Qed.
Lemma at_swap : forall b y, at_side b (swap y) = at_side (negb b) y. Proof. intros [|] (u, v); reflexivity. Qed.
Lemma dfair_swap : forall x lab, dfair x lab -> dfair (fun t => swap (x t)) (fun t => (negb (fst (lab t)), snd (lab t))).
Proof.
  assert (L : forall (l : bool * cmd) b c, l = (negb b, c) -> (negb (fst l), snd l) = (b, c)) by (intros (b', c') b c E; injection E as -> ->; cbn [fst snd]; rewrite Bool.negb_involutive; reflexivity).
  intros x lab H b. destruct (H (negb b)) as (T & G). split.
  - intros T0. destruct (T T0) as (t & Ht & D). exists t. split; [auto|]. rewrite at_swap. destruct D as [D|D]; [left; apply L; exact D|right; exact D].
  - intros k T0. destruct (G k T0) as [(t & Ht & D & m & c & E & P)|(T' & N)]; [left|right].
    + exists t. split; [auto|]. split; [apply L; exact D|]. exists m, c. rewrite at_swap. auto.
    + exists T'. intros t m Ht I. apply (N t m Ht). rewrite at_swap in I. exact I.
Qed.

Section Live.
Variables (qa qb : Z) (x : nat -> sys) (lab : nat -> bool * cmd).
Hypothesis Ha : 1 <= qa <= 255.
Hypothesis Hb : 1 <= qb <= 255.
Hypothesis Hstart : sysinv qa qb (x 0%nat).
Hypothesis Hrun : drun qa qb x lab.
Hypothesis Hfair : dfair x lab.
Definition xa (t : nat) : side := fst (x t).
Definition xb (t : nat) : side := snd (x t).
Lemma live_step : forall t, sysinv qa qb (x t) -> sysinv qa qb (x (S t)) /\
  (if fst (lab t) then grows (xa t) (xb t) (xa (S t)) (xb (S t)) else grows (xb t) (xa t) (xb (S t)) (xa (S t))).
Proof.
  intros t HI. destruct (Hrun t) as (HO & E). unfold xa, xb. destruct (x t) as (A, B) eqn:Ex. destruct (x (S t)) as (A', B') eqn:Ex'. destruct (fst (lab t)); cbn [fst snd swap] in *.
  - apply (step_sys qa qb A B _ A' B' Ha Hb HI HO E).
  - destruct (step_sys qb qa B A _ B' A' Hb Ha (sysinv_swap _ _ _ HI) HO E) as (I & G). split; [|exact G]. apply sysinv_swap in I. exact I.
Qed.
Lemma live_inv : forall t, sysinv qa qb (x t).
Proof. induction t as [|t IH]; [exact Hstart|]. apply (live_step t IH). Qed.
Lemma live_known : forall t, known qa qb (xa t, xb t).
Proof. intros t. unfold xa, xb. rewrite <- surjective_pairing. apply inv_known; auto. apply live_inv. Qed.
(** Everything grows with time. *)
Definition later (s t : nat) : Prop :=
  prefix (sent (xa s)) (sent (xa t)) /\ cN (xa s) <= cN (xa t) /\ cK (xa s) <= cK (xa t) /\ cR (xa s) <= cR (xa t) /\ rank (sta (xa s)) <= rank (sta (xa t)) /\
  prefix (sent (xb s)) (sent (xb t)) /\ cN (xb s) <= cN (xb t) /\ cK (xb s) <= cK (xb t) /\ cR (xb s) <= cR (xb t) /\ rank (sta (xb s)) <= rank (sta (xb t)).
Lemma prefix_refl : forall X (l : list X), prefix l l. Proof. intros. exists []. rewrite app_nil_r. reflexivity. Qed.
Lemma prefix_trans : forall X (a b c : list X), prefix a b -> prefix b c -> prefix a c.
Proof. intros X a b c (u & ->) (v & ->). exists (u ++ v). rewrite app_assoc. reflexivity. Qed.
Lemma later_mono : forall s t, (s <= t)%nat -> later s t.
Proof.
  intros s t H. induction H as [|t H IH]; [unfold later; repeat (split; [first [apply prefix_refl|lia]|]); lia|].
  destruct (live_step t (live_inv t)) as (_ & G). unfold later in *. destruct IH as (I1 & I2 & I3 & I4 & I5 & I6 & I7 & I8 & I9 & I10).
  destruct (fst (lab t)); destruct G as (G1 & G2 & G3 & G4 & G5 & G6 & G7 & G8).
  - assert (Q : cN (xb (S t)) = cN (xb t) /\ cK (xb (S t)) = cK (xb t) /\ cR (xb (S t)) = cR (xb t)) by (unfold cK, cN, cR; rewrite G1, G2, G3; auto). destruct Q as (-> & -> & ->). rewrite G1, G2.
    repeat (split; [first [assumption|eapply prefix_trans; eassumption|lia]|]). lia.
  - assert (Q : cN (xa (S t)) = cN (xa t) /\ cK (xa (S t)) = cK (xa t) /\ cR (xa (S t)) = cR (xa t)) by (unfold cK, cN, cR; rewrite G1, G2, G3; auto). destruct Q as (-> & -> & ->). rewrite G1, G2.
    repeat (split; [first [assumption|eapply prefix_trans; eassumption|lia]|]). lia.
Qed.
(** If messages of a kind are sent again and again (or there is progress),
    one arrives, or there is progress. *)
Lemma leads : forall (f : nat -> Z) b k T, (forall T0, (T <= T0)%nat -> exists t, (T0 <= t)%nat /\ (f T < f t \/ exists m, In m (outq (at_side (negb b) (x t))) /\ of_kind k m)) ->
  forall T0, (T <= T0)%nat -> exists t, (T0 <= t)%nat /\ (f T < f t \/ arrives x lab b (of_kind k) t).
Proof.
  intros f b k T H T0 H0. destruct (proj2 (Hfair b) k T0) as [(t & Ht & A)|(T' & N)]; [exists t; auto|].
  destruct (H (max T0 T') ltac:(lia)) as (t & Ht & [P|(m & I & K)]); [exists t; split; [lia|auto]|]. destruct (N t m ltac:(lia) I K).
Qed.
Definition qof (b : bool) : Z := if b then qa else qb.
Lemma acts : forall b c t, lab t = (b, c) -> own_ok c = true /\ exec1 (qof b) (at_side b (x t), at_side (negb b) (x t)) c = Some (at_side b (x (S t)), at_side (negb b) (x (S t))).
Proof.
  intros b c t E. destruct (Hrun t) as (HO & X). rewrite E in HO, X. cbn [fst snd] in *. split; [exact HO|]. destruct b; cbn [qof at_side negb].
  - rewrite <- !surjective_pairing. exact X.
  - unfold swap in X. exact X.
Qed.
Lemma arrival : forall b P t, arrives x lab b P t -> exists m c' s' o, P m /\ outq (at_side (negb b) (x t)) = m :: c' /\
  step (qof b) (sta (at_side b (x t))) (Recv m) = Ok (s', o) /\ at_side b (x (S t)) = after (at_side b (x t)) (Recv m) s' o.
Proof.
  intros b P t (E & m & c & EO & HP). destruct (acts b _ t E) as (HO & X). destruct (exec_inv _ _ _ _ _ HO X) as [(k & Q & _)|(e & s' & o & c' & Es & Ey & _ & _ & _ & HA & _)]; [discriminate Q|].
  destruct (HA eq_refl) as (m' & EO' & ->). rewrite EO in EO'. injection EO' as <- <-. exists m, c, s', o. split; [auto|]. split; [auto|]. split; [auto|]. congruence.
Qed.
Lemma tick : forall b T0, exists t, (T0 <= t)%nat /\ (~ waits (sta (at_side b (x t))) \/
  exists s' o, step (qof b) (sta (at_side b (x t))) Timeout = Ok (s', o) /\ at_side b (x (S t)) = after (at_side b (x t)) Timeout s' o).
Proof.
  intros b T0. destruct (proj1 (Hfair b) T0) as (t & Ht & [E|N]); exists t; (split; [auto|]); [right|left; auto].
  destruct (acts b _ t E) as (HO & X). destruct (exec_inv _ _ _ _ _ HO X) as [(k & Q & _)|(e & s' & o & c' & Es & Ey & _ & _ & _ & _ & HA)]; [discriminate Q|].
  rewrite (HA _ eq_refl) in *. exists s', o. split; [auto|]. congruence.
Qed.
Lemma in_after : forall X e s' o m, In m (txs o) -> In m (outq (after X e s' o)).
Proof. intros. unfold after. cbn [outq]. apply in_or_app. right. auto. Qed.

(** *** Starting up *)
Definition ranks (t : nat) : Z := rank (sta (xa t)) + rank (sta (xb t)).
Lemma ranks_same : forall s t, (s <= t)%nat -> ranks t <= ranks s -> st (sta (xa t)) = st (sta (xa s)) /\ st (sta (xb t)) = st (sta (xb s)).
Proof.
  intros s t H L. pose proof (later_mono s t H) as M. unfold later in M. unfold ranks in L.
  assert (E : rank (sta (xa t)) = rank (sta (xa s)) /\ rank (sta (xb t)) = rank (sta (xb s))) by lia. destruct E as (E1 & E2). clear - E1 E2.
  unfold rank in *. split; [destruct (st (sta (xa t))), (st (sta (xa s)))|destruct (st (sta (xb t))), (st (sta (xb s)))]; first [reflexivity|discriminate].
Qed.
Lemma ranks_mono : forall s t, (s <= t)%nat -> ranks s <= ranks t.
Proof. intros s t H. pose proof (later_mono s t H) as M. unfold later in M. unfold ranks. lia. Qed.
Lemma good_at : forall b t, exists N K R S, rel (qof b) (sta (at_side b (x t))) N K R S /\ ackflag (sta (at_side b (x t))) = false /\ st (sta (at_side b (x t))) <> Maint.
Proof.
  intros b t. pose proof (live_known t) as ((HA & FA & _) & (HB & FB & _) & _ & _ & H1 & H2 & _). unfold xa, xb in *. destruct b; cbn [at_side qof]; eexists _, _, _, _; (split; [eassumption|]); (split; [auto|]); [apply (not_maint _ _ H1)|apply (not_maint _ _ H2)].
Qed.
Lemma q_ok : forall b, 1 <= qof b <= 255. Proof. intros [|]; auto. Qed.
(** While nobody moves forward: station b in state Istart or Astart repeats its message. *)
Lemma repeats : forall b k T, (forall t, (T <= t)%nat -> ranks t <= ranks T -> match st (sta (at_side (negb b) (x t))) with Istart => k = KStart | Astart => k = KStack | _ => False end) ->
  forall T0, (T <= T0)%nat -> exists t, (T0 <= t)%nat /\ (ranks T < ranks t \/ arrives x lab b (of_kind k) t).
Proof.
  intros b k T Hk. apply leads. intros T0 H0. destruct (tick (negb b) T0) as (t & Ht & D). destruct (Z_lt_dec (ranks T) (ranks t)) as [P|P]; [exists t; auto|].
  specialize (Hk t ltac:(lia) ltac:(lia)). destruct D as [D|(s' & o & Es & Ex)]; [exfalso; apply D; unfold waits; destruct (st (sta (at_side (negb b) (x t)))); auto|].
  exists (S t). split; [lia|]. right. rewrite Ex. destruct (good_at (negb b) t) as (N & K & R & SS & HR & HF & NM).
  destruct (step_forward (qof (negb b)) _ N K R SS Timeout s' o (q_ok _) HR HF ltac:(intros Q; rewrite Q in Hk; auto) NM ltac:(discriminate) ltac:(discriminate) ltac:(discriminate) Es) as (_ & F1 & F2).
  destruct (st (sta (at_side (negb b) (x t)))) eqn:Es'; try contradiction; subst k.
  - exists StartM. split; [apply in_after; apply F1; auto|exact I].
  - exists StackM. split; [apply in_after; apply F2; auto|exact I].
Qed.
Lemma start_progress : forall T, 1 <= rank (sta (xa T)) -> rank (sta (xa T)) <= rank (sta (xb T)) -> rank (sta (xa T)) < 3 -> exists t, (T <= t)%nat /\ ranks T < ranks t.
Proof.
  intros T H1 H2 H3. pose proof (live_known T) as (GA & GB & CA & CB & HA & HB & GTB & GTA).
  assert (Sa : st (sta (xa T)) = Istart \/ st (sta (xa T)) = Astart) by (unfold rank in *; destruct (st (sta (xa T))); auto; lia).
  assert (Up : forall b t, (T <= t)%nat -> ranks t <= ranks T -> forall s', sta (at_side b (x (S t))) = s' -> rank (sta (at_side b (x t))) < rank s' -> ranks T < ranks (S t)).
  { intros b t Ht Hr s' E L. pose proof (ranks_mono T t Ht). pose proof (later_mono t (S t) ltac:(lia)) as M. unfold later, ranks, xa, xb in *. destruct b; cbn [at_side] in *; rewrite <- E in L; lia. }
  assert (Stack : st (sta (xb T)) = Astart -> exists t, (T <= t)%nat /\ ranks T < ranks t).
  { intros Sb. destruct (repeats true KStack T) with (T0 := T) as (t & Ht & [P|Ar]); [|lia|exists t; auto|].
    - intros t Ht Hr. destruct (ranks_same T t Ht Hr) as (_ & E). unfold xb in *. cbn [negb at_side]. rewrite E, Sb. reflexivity.
    - destruct (Z_lt_dec (ranks T) (ranks t)) as [P|P]; [exists t; auto|]. destruct (ranks_same T t Ht ltac:(lia)) as (Ea & _). destruct (arrival _ _ _ Ar) as (m & c' & s' & o & K & EO & Es & Ex).
      destruct m; try destruct K. destruct (good_at true t) as (N & K' & R & SS & HR & HF & NM). unfold xa in *. cbn [at_side] in *.
      destruct (step_forward _ _ N K' R SS (Recv StackM) s' o (q_ok true) HR HF ltac:(rewrite Ea; destruct Sa as [-> | ->]; discriminate) NM ltac:(discriminate) ltac:(discriminate) ltac:(discriminate) Es) as (_ & F1 & F2).
      assert (Er : st s' = Running) by (destruct Sa as [Sa|Sa]; [apply F1|apply F2]; auto; congruence).
      exists (S t). split; [lia|]. apply (Up true t Ht ltac:(lia) s'); cbn [at_side]; [rewrite Ex; reflexivity|]. unfold rank. rewrite Er, Ea. destruct Sa as [-> | ->]; lia. }
  assert (NMb : st (sta (xb T)) <> Maint) by apply (not_maint _ _ HB).
  destruct (st (sta (xb T))) eqn:Sb; try (destruct Sa as [Sa|Sa]; unfold rank in H2; rewrite Sa, Sb in H2; lia); try (apply Stack; reflexivity); [| |contradiction].
  - (* both in Istart *)
    assert (Sa' : st (sta (xa T)) = Istart) by (destruct Sa as [Sa|Sa]; [auto|unfold rank in H2; rewrite Sa, Sb in H2; lia]).
    destruct (repeats false KStart T) with (T0 := T) as (t & Ht & [P|Ar]); [|lia|exists t; auto|].
    + intros t Ht Hr. destruct (ranks_same T t Ht Hr) as (E & _). unfold xa in *. cbn [negb at_side]. rewrite E, Sa'. reflexivity.
    + destruct (Z_lt_dec (ranks T) (ranks t)) as [P|P]; [exists t; auto|]. destruct (ranks_same T t Ht ltac:(lia)) as (_ & Eb). destruct (arrival _ _ _ Ar) as (m & c' & s' & o & K & EO & Es & Ex).
      destruct m; try destruct K. destruct (good_at false t) as (N & K' & R & SS & HR & HF & NM). unfold xb in *. cbn [at_side] in *. rewrite Sb in Eb.
      destruct (step_forward _ _ N K' R SS (Recv StartM) s' o (q_ok false) HR HF ltac:(rewrite Eb; discriminate) NM ltac:(discriminate) ltac:(discriminate) ltac:(discriminate) Es) as (_ & F1 & F2).
      exists (S t). split; [lia|]. apply (Up false t Ht ltac:(lia) s'); cbn [at_side]; [rewrite Ex; reflexivity|]. unfold rank. rewrite (proj1 (proj2 (F1 Eb)) eq_refl), Eb. lia.
  - (* B is running *)
    assert (Sa' : st (sta (xa T)) = Astart). { destruct HA as (c1 & c2 & _ & _ & _ & _ & Y). destruct (Y Sb) as (_ & [Y'|Y']); [auto|]. destruct Sa as [Sa|Sa]; congruence. }
    assert (Ack : forall T0, (T <= T0)%nat -> exists t, (T0 <= t)%nat /\ (ranks T < ranks t \/ arrives x lab true (of_kind (KAck 0)) t)).
    { apply leads. intros T0 H0. destruct (repeats false KStack T) with (T0 := T0) as (t & Ht & [P|Ar]); [|lia|exists t; auto|].
      - intros t Ht Hr. destruct (ranks_same T t Ht Hr) as (E & _). unfold xa in *. cbn [negb at_side]. rewrite E, Sa'. reflexivity.
      - destruct (Z_lt_dec (ranks T) (ranks t)) as [P|P]; [exists t; auto|]. destruct (ranks_same T t ltac:(lia) ltac:(lia)) as (Ea & Eb). destruct (arrival _ _ _ Ar) as (m & c' & s' & o & K & EO & Es & Ex).
        destruct m; try destruct K. exists (S t). split; [lia|]. right. exists (AckM 0). split; [|reflexivity]. cbn [negb]. change (at_side false (x (S t))) with (xb (S t)) in *. change (at_side false (x t)) with (xb t) in *. rewrite Ex. apply in_after.
        pose proof (live_known t) as ((RA & _ & FA) & (RB & _ & _) & _ & _ & _ & _ & GB' & _). destruct (FA ltac:(rewrite Ea, Sa'; discriminate)) as (_ & _ & _ & SE).
        pose proof (answers_stack _ _ _ _ ltac:(rewrite Eb; exact Sb) Es) as Q. destruct RB as (CB' & _). rewrite (rl_r _ _ _ _ _ _ CB') in Q. rewrite SE, firstn_nil in GB'. unfold cR in Q. rewrite GB' in Q. exact Q. }
    destruct (Ack T ltac:(lia)) as (t & Ht & [P|Ar]); [exists t; auto|]. destruct (Z_lt_dec (ranks T) (ranks t)) as [P|P]; [exists t; auto|]. destruct (ranks_same T t Ht ltac:(lia)) as (Ea & _). destruct (arrival _ _ _ Ar) as (m & c' & s' & o & K & EO & Es & Ex).
    destruct m as [resp num d|resp|code resp|num| | |d]; cbn [of_kind] in K; try contradiction. subst resp. destruct (good_at true t) as (N & K' & R & SS & HR & HF & NM). unfold xa in *. cbn [at_side] in *. rewrite Sa' in Ea.
    destruct (step_forward _ _ N K' R SS (Recv (AckM 0)) s' o (q_ok true) HR HF ltac:(rewrite Ea; discriminate) NM ltac:(discriminate) ltac:(discriminate) ltac:(discriminate) Es) as (_ & F1 & F2).
    exists (S t). split; [lia|]. apply (Up true t Ht ltac:(lia) s'); cbn [at_side]; [rewrite Ex; reflexivity|]. unfold rank. rewrite (proj2 (F2 Ea) (or_intror eq_refl)), Ea. lia.
Qed.

(** *** Data, from the first station to the second *)
Definition work (t : nat) : Z := cN (xa t) + cK (xa t) + cR (xb t).
Lemma work_same : forall s t, (s <= t)%nat -> work t <= work s -> cN (xa t) = cN (xa s) /\ cK (xa t) = cK (xa s) /\ cR (xb t) = cR (xb s).
Proof. intros s t H L. pose proof (later_mono s t H) as M. unfold later in M. unfold work in L. lia. Qed.
Lemma work_mono : forall s t, (s <= t)%nat -> work s <= work t.
Proof. intros s t H. pose proof (later_mono s t H) as M. unfold later in M. unfold work. lia. Qed.
Lemma stays_running : forall s t, (s <= t)%nat -> st (sta (xa s)) = Running -> st (sta (xb s)) = Running -> st (sta (xa t)) = Running /\ st (sta (xb t)) = Running.
Proof.
  intros s t H E1 E2. pose proof (later_mono s t H) as M. unfold later in M. pose proof (live_known t) as (_ & _ & _ & _ & HA & HB & _). apply not_maint in HA, HB.
  destruct M as (_ & _ & _ & _ & M1 & _ & _ & _ & _ & M2). unfold rank in M1, M2. rewrite E1 in M1. rewrite E2 in M2.
  destruct (st (sta (xa t))), (st (sta (xb t))); try contradiction; try lia; auto.
Qed.
Lemma data_progress : forall T, st (sta (xa T)) = Running -> st (sta (xb T)) = Running -> cR (xb T) < zlen (sent (xa T)) ->
  exists t, (T <= t)%nat /\ work T < work t.
Proof.
  intros T Sa Sb Hlt.
  assert (Here : exists N K R, K <= R <= N /\ N <= K + qa /\ K < N /\ 0 <= K /\ work T = N + K + R /\
    forall t, (T <= t)%nat -> work t <= work T ->
      rel qa (sta (xa t)) N K (cR (xa t)) (sent (xa t)) /\ rel qb (sta (xb t)) (cN (xb t)) (cK (xb t)) R (sent (xb t)) /\
      ackflag (sta (xa t)) = false /\ ackflag (sta (xb t)) = false /\ st (sta (xa t)) = Running /\ st (sta (xb t)) = Running /\
      chan qb (sent (xb t)) (outq (xb t)) (cR (xa t)) K (cN (xb t)) R /\ cR (xb t) = R).
  { exists (cN (xa T)), (cK (xa T)), (cR (xb T)). pose proof (live_known T) as (((C & (W1 & W2) & W3) & _) & _ & CA & CB & _).
    destruct (chan_le _ _ _ _ _ _ _ CA) as (L1 & _). destruct (chan_le _ _ _ _ _ _ _ CB) as (_ & L2).
    split; [lia|]. split; [apply (rl_win _ _ _ _ _ _ C)|]. split.
    { destruct (notsent (sta (xa T))) as [|d l] eqn:EN; [|specialize (W3 ltac:(discriminate)); lia].
      assert (E0 : cN (xa T) = zlen (sent (xa T))) by (unfold cN; rewrite EN; unfold zlen; cbn [length]; lia). lia. }
    split; [apply (rl_k0 _ _ _ _ _ _ C)|]. split; [reflexivity|]. intros t Ht Hw. destruct (work_same T t Ht Hw) as (E1 & E2 & E3). destruct (stays_running T t Ht Sa Sb) as (S1 & S2).
    pose proof (live_known t) as ((RA & FA & _) & (RB & FB & _) & _ & CB' & _). rewrite E1, E2 in RA. rewrite E3 in RB, CB'. rewrite E2 in CB'. tauto. }
  destruct Here as (N & K & R & HKR & HW & HKN & HK0 & EW & Here).
  assert (Stay : forall t, (T <= t)%nat -> work T < work t \/ work t <= work T) by (intros; lia).
  assert (Rep : forall T0, (T <= T0)%nat -> exists t, (T0 <= t)%nat /\ (work T < work t \/ arrives x lab false (of_kind (KRep (N mod 256))) t)).
  { apply leads. intros T0 H0. destruct (tick true T0) as (t & Ht & D). destruct (Stay t ltac:(lia)) as [P|P]; [exists t; auto|]. destruct (Here t ltac:(lia) P) as ((C & _) & _ & FA & _ & S1 & _).
    change (at_side true (x t)) with (xa t) in *. change (at_side true (x (S t))) with (xa (S t)) in *. destruct D as [D|(s' & o & Es & Ex)].
    - exfalso. apply D. unfold waits. rewrite S1. intros EQ. pose proof (pend_eq qa Ha _ _ _ _ _ C) as PE. rewrite EQ in PE. unfold ssub in PE. rewrite Z.sub_diag in PE. cbn in PE. lia.
    - exists (S t). split; [lia|]. right. exists (RepM (N mod 256)). split; [|reflexivity]. cbn [negb]. change (at_side true (x (S t))) with (xa (S t)). rewrite Ex. apply in_after.
      rewrite <- (rl_n _ _ _ _ _ _ C). apply (sends_rep _ _ _ _ S1 Es). }
  assert (Got : forall T0, (T <= T0)%nat -> exists t, (T0 <= t)%nat /\ (work T < work t \/ exists m, In m (outq (xb t)) /\ of_kind (if R =? N then KAck (N mod 256) else KNak) m)).
  { intros T0 H0. destruct (Rep T0 H0) as (t & Ht & [P|Ar]); [exists t; auto|]. destruct (Stay t ltac:(lia)) as [P|P]; [exists t; auto|]. destruct (Here t ltac:(lia) P) as (_ & (C & _) & _ & _ & _ & S2 & _).
    destruct (arrival _ _ _ Ar) as (m & c' & s' & o & KD & EO & Es & Ex). destruct m as [resp num d|resp|code resp|num| | |d]; cbn [of_kind] in KD; try contradiction. subst num.
    change (at_side false (x t)) with (xb t) in *. change (at_side false (x (S t))) with (xb (S t)) in *. pose proof (answers_rep _ _ _ _ _ S2 Es) as Q. rewrite (rl_r _ _ _ _ _ _ C) in Q.
    assert (EQ : (N mod 256 =? R mod 256) = (R =? N)).
    { destruct (Z.eqb_spec R N) as [->|NE]; [apply Z.eqb_refl|]. apply Z.eqb_neq. intros X. apply NE. assert (Y : (N - R) mod 256 = 0) by (rewrite Zminus_mod, X, Z.sub_diag; reflexivity). rewrite Z.mod_small in Y by (clear - HKR HW Ha; lia). clear - Y; lia. }
    rewrite EQ in Q. exists (S t). split; [lia|]. right. rewrite Ex. destruct (Z.eqb_spec R N) as [->|NE]; eexists; (split; [apply in_after; exact Q|]); [reflexivity|exact I]. }
  destruct (Z.eqb_spec R N) as [RN|RN].
  - (* everything has been received: the answer is an acknowledgement *)
    destruct (leads work true (KAck (N mod 256)) T Got T ltac:(lia)) as (t & Ht & [P|Ar]); [exists t; auto|]. destruct (Stay t ltac:(lia)) as [P|P]; [exists t; auto|].
    destruct (Here t ltac:(lia) P) as (RA & _ & FA & _ & S1 & _ & _ & ER). destruct (arrival _ _ _ Ar) as (m & c' & s' & o & KD & EO & Es & Ex).
    destruct m as [resp num d|resp|code resp|num| | |d]; cbn [of_kind] in KD; try contradiction. subst resp. change (at_side true (x t)) with (xa t) in *. change (at_side true (x (S t))) with (xa (S t)) in *.
    destruct (answers_ack qa _ N K _ _ N s' o Ha RA S1 FA ltac:(lia) Es) as (N' & R').
    assert (R'' : rel qa (sta (xa (S t))) N' N (cR (xa t)) (sent (xa (S t)))) by (rewrite Ex; cbn [after sta sent accepted]; rewrite app_nil_r; exact R').
    destruct (rel_counts qa _ _ _ _ Ha R'') as (E1 & E2). destruct (rel_counts qa _ _ _ _ Ha RA) as (E3 & E4). exists (S t). split; [lia|]. pose proof (later_mono t (S t) ltac:(lia)) as M. unfold later in M. pose proof (work_mono T t Ht). unfold work in *. lia.
  - (* something is missing: the answer asks for it *)
    assert (Dat : forall T0, (T <= T0)%nat -> exists t, (T0 <= t)%nat /\ (work T < work t \/ arrives x lab false (of_kind (KData ((R + 1) mod 256))) t)).
    { apply leads. intros T0 H0. destruct (leads work true KNak T Got T0 H0) as (t & Ht & [P|Ar]); [exists t; auto|]. destruct (Stay t ltac:(lia)) as [P|P]; [exists t; auto|].
      destruct (Here t ltac:(lia) P) as (RA & _ & FA & _ & S1 & _ & CB & _). destruct (arrival _ _ _ Ar) as (m & c' & s' & o & KD & EO & Es & Ex).
      destruct m as [resp num d|resp|code resp|num| | |d]; cbn [of_kind] in KD; try contradiction. change (at_side true (x t)) with (xa t) in *. change (at_side true (x (S t))) with (xa (S t)) in *. change (at_side (negb true) (x t)) with (xb t) in *.
      rewrite EO in CB. destruct CB as (h & p & _ & L1 & IO & CB). destruct (chan_le _ _ _ _ _ _ _ CB) as (_ & L2). cbn [item_ok] in IO. subst resp.
      destruct (answers_nak qa _ N K _ _ code p s' o Ha RA S1 ltac:(lia) Es (R + 1) ltac:(lia)) as (d & Hd).
      exists (S t). split; [lia|]. right. eexists. cbn [negb]. change (at_side true (x (S t))) with (xa (S t)). rewrite Ex. split; [apply in_after; exact Hd|reflexivity]. }
    destruct (Dat T ltac:(lia)) as (t & Ht & [P|Ar]); [exists t; auto|]. destruct (Stay t ltac:(lia)) as [P|P]; [exists t; auto|].
    destruct (Here t ltac:(lia) P) as (_ & RB & _ & FB & _ & S2 & _ & ER). destruct (arrival _ _ _ Ar) as (m & c' & s' & o & KD & EO & Es & Ex).
    destruct m as [resp num d|resp|code resp|num| | |d]; cbn [of_kind] in KD; try contradiction. subst num. change (at_side false (x t)) with (xb t) in *. change (at_side false (x (S t))) with (xb (S t)) in *.
    pose proof (answers_data qb _ _ _ R _ resp d s' o Hb RB S2 FB Es) as ED. exists (S t). split; [lia|]. pose proof (later_mono t (S t) ltac:(lia)) as M. unfold later in M. pose proof (work_mono T t Ht) as WM.
    assert (E1 : cR (xb (S t)) = cR (xb t) + 1) by (rewrite Ex, cR_after, ED; reflexivity). unfold work in *. lia.
Qed.
Lemma data_arrives : forall T, st (sta (xa T)) = Running -> st (sta (xb T)) = Running -> exists t, (T <= t)%nat /\ zlen (sent (xa T)) <= cR (xb t).
Proof.
  intros T Sa Sb. set (L := zlen (sent (xa T))).
  assert (H : forall k t, (T <= t)%nat -> (Z.to_nat (3 * L + qa - work t) <= k)%nat -> exists t', (t <= t')%nat /\ L <= cR (xb t')).
  { induction k as [|k IH]; intros t Ht Hk; (destruct (Z_le_dec L (cR (xb t))) as [D|D]; [exists t; auto|]);
      pose proof (live_known t) as (((C & _) & _) & _ & CA & CB & _); destruct (chan_le _ _ _ _ _ _ _ CA) as (L1 & _); destruct (chan_le _ _ _ _ _ _ _ CB) as (_ & L2); pose proof (rl_win _ _ _ _ _ _ C) as W;
      assert (B : work t < 3 * L + qa) by (unfold work; lia); [lia|].
    destruct (stays_running T t Ht Sa Sb) as (S1 & S2). pose proof (later_mono T t Ht) as ((w & Ew) & _).
    assert (LL : L <= zlen (sent (xa t))) by (unfold L; rewrite Ew; unfold zlen; rewrite app_length; lia).
    destruct (data_progress t S1 S2 ltac:(lia)) as (t1 & Ht1 & P). destruct (IH t1 ltac:(lia) ltac:(lia)) as (t' & Ht' & R). exists t'. split; [lia|exact R]. }
  apply (H _ T (Nat.le_refl _) (Nat.le_refl _)).
Qed.
Lemma data_delivered : forall T, st (sta (xa T)) = Running -> st (sta (xb T)) = Running -> exists t, (T <= t)%nat /\ prefix (sent (xa T)) (got (xb t)).
Proof.
  intros T Sa Sb. destruct (data_arrives T Sa Sb) as (t & Ht & L). exists t. split; [exact Ht|]. pose proof (live_known t) as (_ & _ & _ & _ & _ & _ & G & _). rewrite G.
  destruct (later_mono T t Ht) as ((w & ->) & _). rewrite firstn_app, firstn_all2 by (unfold zlen in L; lia). apply prefix_app.
Qed.
End Live.

Lemma running_comes : forall qa qb x lab, 1 <= qa <= 255 -> 1 <= qb <= 255 -> sysinv qa qb (x 0%nat) -> drun qa qb x lab -> dfair x lab ->
  st (sta (fst (x 0%nat))) <> Off -> st (sta (snd (x 0%nat))) <> Off ->
  exists T, st (sta (fst (x T))) = Running /\ st (sta (snd (x T))) = Running.
Proof.
  intros qa qb x lab Ha Hb HI HR HF O1 O2.
  assert (HI' : sysinv qb qa (swap (x 0%nat))) by (apply sysinv_swap; exact HI).
  pose proof (start_progress qa qb x lab Ha Hb HI HR HF) as P1. pose proof (start_progress qb qa _ _ Hb Ha HI' (drun_swap _ _ _ _ HR) (dfair_swap _ _ HF)) as P2.
  pose proof (later_mono qa qb x lab Ha Hb HI HR) as LM. unfold later in LM. pose proof (live_known qa qb x lab Ha Hb HI HR) as LK. unfold ranks, xa, xb in *. cbn [swap fst snd] in P2.
  assert (Rk : forall t, 1 <= rank (sta (fst (x t))) <= 3 /\ 1 <= rank (sta (snd (x t))) <= 3).
  { intros t. specialize (LM 0%nat t ltac:(lia)). destruct (LK t) as (_ & _ & _ & _ & H1 & H2 & _). apply not_maint in H1, H2.
    assert (B : 1 <= rank (sta (fst (x 0%nat))) /\ 1 <= rank (sta (snd (x 0%nat)))) by (unfold rank; destruct (st (sta (fst (x 0%nat)))), (st (sta (snd (x 0%nat)))); try contradiction; lia).
    assert (U : rank (sta (fst (x t))) <= 3 /\ rank (sta (snd (x t))) <= 3) by (clear - H1 H2; unfold rank; destruct (st (sta (fst (x t)))), (st (sta (snd (x t)))); try contradiction; lia). lia. }
  assert (H : forall k t, (Z.to_nat (6 - (rank (sta (fst (x t))) + rank (sta (snd (x t))))) <= k)%nat -> exists T, rank (sta (fst (x T))) = 3 /\ rank (sta (snd (x T))) = 3).
  { induction k as [|k IH]; intros t Hk; pose proof (Rk t) as B; [exists t; lia|]. destruct (Z_le_dec 6 (rank (sta (fst (x t))) + rank (sta (snd (x t))))) as [D|D]; [exists t; lia|].
    destruct (Z_le_dec (rank (sta (fst (x t)))) (rank (sta (snd (x t))))) as [D2|D2].
    - destruct (P1 t ltac:(lia) ltac:(lia) ltac:(lia)) as (t1 & _ & Q). apply (IH t1). lia.
    - destruct (P2 t ltac:(lia) ltac:(lia) ltac:(lia)) as (t1 & _ & Q). apply (IH t1). lia. }
  destruct (H _ 0%nat (Nat.le_refl _)) as (T & E1 & E2). exists T. clear - E1 E2. unfold rank in *. destruct (st (sta (fst (x T)))), (st (sta (snd (x T)))); try discriminate; auto.
Qed.

(** ** The theorem (C65) *)
(** Two stations, wherever they have got to (by [steps] from the beginning)
    with both ports connected; from there any endless run, with any losses and
    damage, in which a station that waits has a timeout some time and messages
    of a kind that is sent again and again arrive again and again: both come
    to the running state and stay in it, and everything given to one of them
    to send is delivered, in order, by the other one. *)
Theorem ddcmp_live : forall qa qb x lab, 1 <= qa <= 255 -> 1 <= qb <= 255 -> steps qa qb sys0 (x 0%nat) -> drun qa qb x lab -> dfair x lab ->
  st (sta (fst (x 0%nat))) <> Off -> st (sta (snd (x 0%nat))) <> Off ->
  (exists T, forall t, (T <= t)%nat -> st (sta (fst (x t))) = Running /\ st (sta (snd (x t))) = Running) /\
  forall t, exists t', (t <= t')%nat /\ prefix (sent (fst (x t))) (got (snd (x t'))) /\ prefix (sent (snd (x t))) (got (fst (x t'))).
Proof.
  intros qa qb x lab Ha Hb HS HR HF O1 O2. pose proof (steps_inv qa qb _ _ Ha Hb HS (sysinv_0 qa qb Ha Hb)) as HI. destruct (running_comes qa qb x lab Ha Hb HI HR HF O1 O2) as (T & E1 & E2).
  assert (HI' : sysinv qb qa (swap (x 0%nat))) by (apply sysinv_swap; exact HI).
  pose proof (stays_running qa qb x lab Ha Hb HI HR) as SR. unfold xa, xb in SR. split; [exists T; intros t Ht; apply (SR T t Ht E1 E2)|].
  intros t. set (t0 := max T t). destruct (SR T t0 ltac:(lia) E1 E2) as (R1 & R2).
  destruct (data_delivered qa qb x lab Ha Hb HI HR HF t0 R1 R2) as (t1 & H1 & D1).
  destruct (data_delivered qb qa _ _ Hb Ha HI' (drun_swap _ _ _ _ HR) (dfair_swap _ _ HF) t0 R2 R1) as (t2 & H2 & D2). unfold xa, xb in *. cbn [swap fst snd] in D2.
  pose proof (later_mono qa qb x lab Ha Hb HI HR) as LM. unfold later, xa, xb in LM.
  assert (PG : forall s s', (s <= s')%nat -> prefix (got (fst (x s))) (got (fst (x s'))) /\ prefix (got (snd (x s))) (got (snd (x s')))).
  { intros s s' Hs. pose proof (live_known qa qb x lab Ha Hb HI HR) as LK. unfold xa, xb in LK. destruct (LK s) as (_ & _ & _ & _ & _ & _ & GB & GA). destruct (LK s') as (GSA & GSB & CA & CB & _ & _ & GB' & GA').
    destruct (LM s s' Hs) as (P1 & _ & _ & M1 & _ & P2 & _ & _ & M2 & _).
    assert (FP : forall (l l' : list (list Z)) i j, 0 <= i <= j -> i <= zlen l -> prefix l l' -> prefix (firstn (Z.to_nat i) l) (firstn (Z.to_nat j) l')).
    { intros l l' i j Hij Hil (w & ->). rewrite firstn_app. exists (skipn (Z.to_nat i) (firstn (Z.to_nat j) l) ++ firstn (Z.to_nat j - length l) w). rewrite app_assoc. f_equal.
      rewrite <- (firstn_skipn (Z.to_nat i) (firstn (Z.to_nat j) l)) at 1. rewrite firstn_firstn, Nat.min_l by lia. reflexivity. }
    pose proof (zlen_nonneg _ (got (fst (x s)))) as Z1. pose proof (zlen_nonneg _ (got (snd (x s)))) as Z2.
    assert (Q1 : cR (fst (x s)) <= zlen (sent (snd (x s)))) by (unfold cR; rewrite GA; unfold zlen; rewrite firstn_length; lia).
    assert (Q2 : cR (snd (x s)) <= zlen (sent (fst (x s)))) by (unfold cR; rewrite GB; unfold zlen; rewrite firstn_length; lia).
    split; [rewrite GA, GA'; apply FP|rewrite GB, GB'; apply FP]; auto; unfold cR in *; lia. }
  exists (max t1 t2). split; [lia|]. destruct (LM t t0 ltac:(lia)) as (P1 & _ & _ & _ & _ & P2 & _). destruct (PG t1 (max t1 t2) ltac:(lia)) as (_ & G1). destruct (PG t2 (max t1 t2) ltac:(lia)) as (G2 & _).
  split; eapply prefix_trans; [exact P1|eapply prefix_trans; eassumption|exact P2|eapply prefix_trans; eassumption].
Qed.
Print Assumptions ddcmp_live.

(** ** Such runs exist *)
(** A finite run to a moment at which nothing is under way and nobody waits
    can be continued (nothing happens any more). *)
Definition upto (q : Z) (x0 : sys) (l : list (bool * cmd)) (t : nat) : sys := match exec q x0 (firstn t l) with Some y => y | None => x0 end.
Definition doing (l : list (bool * cmd)) (t : nat) : bool * cmd := nth t l (true, Lose 0).
Definition quiet (y : sys) : Prop := outq (fst y) = [] /\ outq (snd y) = [] /\ ~ waits (sta (fst y)) /\ ~ waits (sta (snd y)).
Lemma exec_app : forall q l1 l2 x y, exec q x l1 = Some y -> exec q x (l1 ++ l2) = exec q y l2.
Proof.
  induction l1 as [|(b, c) l1 IH]; intros l2 x y E; cbn [exec app] in *; [congruence|]. destruct b; [destruct (exec1 q x c); [eauto|discriminate]|destruct (exec1 q (swap x) c); [eauto|discriminate]].
Qed.
Lemma exec_first : forall q l x y t, exec q x l = Some y -> exists z, exec q x (firstn t l) = Some z.
Proof.
  induction l as [|(b, c) l IH]; intros x y t E; [exists x; rewrite firstn_nil; reflexivity|]. destruct t as [|t]; [exists x; reflexivity|]. cbn [exec firstn] in *.
  destruct b; [destruct (exec1 q x c); [eauto|discriminate]|destruct (exec1 q (swap x) c); [eauto|discriminate]].
Qed.
Lemma quiet_fair : forall q l x0 y, forallb (fun bc => own_ok (snd bc)) l = true -> exec q x0 l = Some y -> quiet y ->
  drun q q (upto q x0 l) (doing l) /\ dfair (upto q x0 l) (doing l) /\ upto q x0 l 0%nat = x0 /\ upto q x0 l (length l) = y.
Proof.
  intros q l x0 y HO E (Q1 & Q2 & Q3 & Q4).
  assert (End : forall t, (length l <= t)%nat -> upto q x0 l t = y) by (intros t Ht; unfold upto; rewrite firstn_all2, E by exact Ht; reflexivity).
  split; [|split; [|split; [reflexivity|apply End; lia]]].
  - intros t. destruct (Nat.lt_ge_cases t (length l)) as [L|L].
    + unfold doing. pose proof (nth_In l (true, Lose 0) L) as IN. rewrite forallb_forall in HO. split; [apply HO; exact IN|].
      destruct (exec_first q l x0 y t E) as (z & Ez). destruct (exec_first q l x0 y (S t) E) as (z' & Ez').
      assert (EF : firstn (S t) l = firstn t l ++ [nth t l (true, Lose 0)]).
      { clear - L. revert l L. induction t as [|t IH]; intros [|h l] L; cbn [length] in L; try lia; [reflexivity|]. cbn [firstn nth app]. f_equal. apply IH. lia. }
      unfold upto. rewrite Ez, Ez'. rewrite EF, (exec_app _ _ _ _ _ Ez) in Ez'. destruct (nth t l (true, Lose 0)) as ([|], c); cbn [exec fst snd] in *.
      * destruct (exec1 q z c); [exact Ez'|discriminate Ez'].
      * destruct (exec1 q (swap z) c) as [(u, v)|]; [injection Ez' as <-; reflexivity|discriminate Ez'].
    + unfold doing. rewrite nth_overflow by exact L. cbn [fst snd own_ok]. split; [reflexivity|]. rewrite !End by lia. destruct y as (A, B). cbn [fst snd] in *. cbn [exec1]. rewrite Q2. cbn [firstn skipn app]. rewrite <- Q2, set_outq_id. reflexivity.
  - intros b. split.
    + intros T. exists (max T (length l)). split; [lia|]. right. rewrite End by lia. destruct b; auto.
    + intros k T. right. exists (length l). intros t m Ht. rewrite End by exact Ht. destruct b; cbn [negb at_side]; [rewrite Q2|rewrite Q1]; intros [].
Qed.
(** The run of C16's example (with a lost and a damaged message), from the
    moment at which both ports are connected. *)
Definition live_start : sys := match exec 2 sys0 (firstn 2 demo) with Some y => y | None => sys0 end.
Definition live_cmds : list (bool * cmd) := skipn 2 demo ++ [b_ Arrive].
Example ddcmp_live_example : exists x lab,
  steps 2 2 sys0 (x 0%nat) /\ drun 2 2 x lab /\ dfair x lab /\ st (sta (fst (x 0%nat))) = Istart /\ st (sta (snd (x 0%nat))) = Istart /\
  (exists t, sent (fst (x t)) = [[1]; [2]; [3]] /\ sent (snd (x t)) = [[9]]) /\ (exists t, lab t = (false, Lose 0) /\ outq (fst (x t)) <> []) /\ (exists t, lab t = (true, BadData 2)).
Proof.
  assert (E : exists A B, exec 2 live_start live_cmds = Some (A, B) /\ quiet (A, B) /\ sent A = [[1]; [2]; [3]] /\ sent B = [[9]]).
  { vm_compute. eexists _, _. split; [reflexivity|]. split; [|split; reflexivity]. split; [reflexivity|]. split; [reflexivity|]. split; intros X; apply X; reflexivity. }
  destruct E as (A & B & E & Q & S1 & S2). destruct (quiet_fair 2 live_cmds live_start (A, B) ltac:(reflexivity) E Q) as (R & F & X0 & X1).
  exists (upto 2 live_start live_cmds), (doing live_cmds). rewrite X0. split; [|split; [exact R|split; [exact F|split; [reflexivity|split; [reflexivity|split]]]]].
  - apply (exec_steps 2 (firstn 2 demo) sys0 sys0); [reflexivity|apply steps_nil|reflexivity].
  - exists (length live_cmds). rewrite X1. auto.
  - split; [exists 7%nat; split; [reflexivity|vm_compute; discriminate]|exists 19%nat; reflexivity].
Qed.
