(** C33: what one end hands to send_data reaches the user of the other end, in
    order and without loss or repetition. *)
From Verif Require Import Base Dict ModuloModel PacketModel NspPktModel NspModel NspFrame NspPrim NspRx NspRxProps NspSend NspSendInv NspFlow NspRetx NspTags NspE2E.

(** * Specification *)
(** A packet [q] that comes to [dst] from [src].  Anything but data, interrupt,
    link service and acknowledgement messages may come at any time with any
    content.  Those are copies of something [src] has sent: after any delay and
    any number of times, or never.  The copy is what the receiver decodes from
    the bytes.  The delay is limited only by the number space: less than half of
    it lies between the segment and the number of segments passed up, and
    between the acknowledgement and the number of segments sent. *)
Definition arrives (src dst : conn) (q : npkt) : Prop :=
  is_ackhdr q = false \/
  exists p g b, In (OTx p g) (clog src) /\ encode p = Ok b /\ decode b = Ok q /\
    (is_data p = true -> zlen (delivered CD (clog dst)) - 2048 < g_seg g) /\
    (forall r, g_d g = Some r -> hi (clog dst) - r < 2048).
Definition ev_from (src dst : conn) (e : cev) : Prop := ev_ok e /\ match e with VRecv q => arrives src dst q | _ => True end.
Definition starts (cfg : ncfg) (c : conn) : Prop :=
  (exists src dest x, conn_outbound cfg src dest x = Ok c) \/ (exists src dest p, ci_size_ok p /\ conn_inbound cfg src dest p = Ok c).
(** Two connections joined by such a network: calls of the API, timers and
    receptions at either end in any order. *)
Inductive exec2 (cfA cfB : ncfg) : conn -> conn -> Prop :=
  | x_start : forall A B, starts cfA A -> starts cfB B -> exec2 cfA cfB A B
  | x_A : forall A B e A', exec2 cfA cfB A B -> ev_from B A e -> cstep cfA A e = Ok A' -> exec2 cfA cfB A' B
  | x_B : forall A B e B', exec2 cfA cfB A B -> ev_from A B e -> cstep cfB B e = Ok B' -> exec2 cfA cfB A B'.
(** The messages taken by send_data. *)
Definition sent1 (o : out) : list (list Z) := match o with OAccepted _ (x :: d) => [x :: d] | _ => [] end.
Definition sent (l : list out) : list (list Z) := flat_map sent1 l.
Definition cfg_ok (cfg : ncfg) : Prop := 1 <= phase cfg /\ 1 <= qmax cfg <= 2047.

(** * Proofs *)
Lemma exec2_sym : forall cfA cfB A B, exec2 cfA cfB A B -> exec2 cfB cfA B A.
Proof. intros cfA cfB A B H. induction H; [now apply x_start|eapply x_B; eauto|eapply x_A; eauto]. Qed.
Lemma exec2_A : forall cfA cfB A B, exec2 cfA cfB A B -> cexec cfA A.
Proof.
  intros cfA cfB A B H. induction H as [A B SA SB|A B e A' H IH [E _] S|A B e B' H IH E S]; [|eapply ce_ev; eauto|exact IH].
  destruct SA as [(src & dest & x & S)|(src & dest & p & _ & S)]; [eapply ce_out; eauto|eapply ce_in; eauto].
Qed.
Lemma exec2_ZI : forall cfA cfB A B, 1 <= phase cfA -> exec2 cfA cfB A B -> ZI A.
Proof.
  intros cfA cfB A B PH H. induction H as [A B SA SB|A B e A' H IH [E _] S|A B e B' H IH E S]; [|eapply ZI_step; eauto|exact IH].
  destruct SA as [(src & dest & x & S)|(src & dest & p & P & S)]; [eapply ZI_outbound; eauto|eapply ZI_inbound; eauto].
Qed.
Lemma exec2_TI : forall cfA cfB A B, 1 <= phase cfA -> exec2 cfA cfB A B -> TI A.
Proof.
  intros cfA cfB A B PH H. induction H as [A B SA SB|A B e A' H IH [E _] S|A B e B' H IH E S]; [|eapply TI_step; eauto|exact IH].
  destruct SA as [(src & dest & x & S)|(src & dest & p & P & S)]; [eapply TI_outbound; eauto|eapply TI_inbound; eauto].
Qed.
Lemma step_log : forall cfg c e c', 1 <= phase cfg -> ev_ok e -> cstep cfg c e = Ok c' -> exists m, clog c' = clog c ++ m.
Proof.
  intros cfg c e c' PH EO H. destruct (is_send e) eqn:S.
  - destruct e; try discriminate S. cbn [cstep] in H. unfold conn_send in H. destruct (_ || _) in H; [injection H as <-; eexists; reflexivity|].
    destruct (csegsize c =? 0); [discriminate|]. apply send_segs_frame in H. destruct (fr_log _ _ H) as (l & L & _). rewrite L. cbn [clog emit set_clog]. rewrite <- app_assoc. eauto.
  - apply (step_star cfg (ev_arr e) false) in H; auto. eapply star_log. exact H.
Qed.

(** The receiver against the sender. *)
Definition bodyof (s : seg) : npkt := let '(bo, eo, pl) := s in NData 0 0 None None 0 0 bo eo pl.
Definition agrees (f : chan -> Z -> npkt) (A : conn) : Prop :=
  forall n s, 1 <= n <= hi (clog A) -> nth_error (content (clog A)) (Z.to_nat (n - 1)) = Some s -> f CD n = bodyof s.
Lemma agrees_ext : forall f A A' l, clog A' = clog A ++ l -> agrees f A' -> agrees f A.
Proof. intros f A A' l L H n s N E. apply H; rewrite L; [rewrite hi_app; lia|]. rewrite content_app. now apply nth_app_some. Qed.
Lemma hi_attained : forall l, 0 < hi l -> exists p g, In (OTx p g) l /\ is_data p = true /\ g_seg g = hi l.
Proof.
  induction l as [|o l IH]; intros H; cbn [hi fold_right] in *; [lia|]. fold (hi l) in *. destruct (Z.le_gt_cases (dseg o) (hi l)) as [L|L].
  - rewrite Z.max_r in * by lia. destruct (IH H) as (p & g & A & B & C). exists p, g. split; [right; exact A|auto].
  - rewrite Z.max_l in * by lia. pose proof (hi_nonneg l). destruct o; cbn [dseg] in *; try lia. destruct (is_data p) eqn:D; [|lia]. exists p, g. split; [left; reflexivity|auto].
Qed.
Lemma hi_content : forall cfg F A, SI cfg [] F A -> hi (clog A) <= zlen (content (clog A)).
Proof.
  intros cfg F A H. destruct (Z.le_gt_cases (hi (clog A)) 0) as [L|L]; [pose proof (zlen_nonneg _ (content (clog A))); lia|].
  destruct (hi_attained _ L) as (p & g & I1 & I2 & I3). destruct (si_log _ _ _ _ H p g I1 I2) as (G1 & G2 & _). apply nth_lt in G2. unfold zlen. lia.
Qed.
Definition fA (A : conn) (ch : chan) (n : Z) : npkt :=
  if (1 <=? n) && (n <=? hi (clog A)) then match nth_error (content (clog A)) (Z.to_nat (n - 1)) with Some s => bodyof s | None => NEmpty end else NEmpty.
Lemma fA_agrees : forall A, agrees (fA A) A.
Proof. intros A n s N E. unfold fA. replace ((1 <=? n) && (n <=? hi (clog A))) with true by lia. now rewrite E. Qed.

(** A control packet does not decode as one with acknowledgements. *)
Lemma flag_control : forall t, In t [(1, 2); (2, 1); (2, 6); (2, 2); (2, 3); (2, 4)] -> exists h, flag_enc (fst t) (snd t) 0 0 0 0 = Ok [h] /\ In h [36; 24; 104; 40; 56; 72].
Proof. intros t H. cbn [In] in H. destruct H as [<- |[<- |[<- |[<- |[<- |[<- |[]]]]]]]; vm_compute; eauto 12. Qed.
Lemma control_head : forall p b, is_ackhdr p = false -> encode p = Ok b -> b = [0] \/ exists h t, b = h :: t /\ In h [36; 24; 104; 40; 56; 72].
Proof.
  intros p b AH E.
  assert (G : forall t (k : list Z -> res (list Z)), In t [(1, 2); (2, 1); (2, 6); (2, 2); (2, 3); (2, 4)] -> (let* h := flag_enc (fst t) (snd t) 0 0 0 0 in k h) = Ok b ->
     (forall h x, k [h] = Ok x -> exists y, x = h :: y) -> exists h t, b = h :: t /\ In h [36; 24; 104; 40; 56; 72]).
  { intros t k IN H K. destruct (flag_control t IN) as (h & F & HI). rewrite F in H. cbn [bind] in H. destruct (K h b H) as (y & ->). eauto. }
  assert (K : forall (r : res (list Z)) (j : list Z -> list Z) h x, (let* y := r in Ok ([h] ++ j y)) = Ok x -> exists y, x = h :: y).
  { intros r j h x X. destruct r as [y|]; cbn [bind] in X; [|discriminate]. injection X as <-. eauto. }
  destruct p; try discriminate AH; unfold encode in E.
  - right. apply (G (1, 2) _ (or_introl eq_refl) E). intros h x X. apply (K _ (fun y => y)) in X. exact X.
  - right. destruct rci; [eapply (G (2, 6)); [cbn; auto 8|exact E|]|eapply (G (2, 1)); [cbn; auto 8|exact E|]]; intros h x X; apply (K _ (fun y => y ++ pl)) in X; exact X.
  - right. eapply (G (2, 2)); [cbn; auto 8|exact E|]. intros h x X. cbv beta in X. destruct (connhdr_enc _ _ _ _ _) as [y|]; cbn [bind] in X; [|discriminate]. apply (K _ (fun z => y ++ z)) in X. exact X.
  - right. eapply (G (2, 3)); [cbn; auto 8|exact E|]. intros h x X. cbv beta in X. destruct (to_bytes 2 d) as [y|]; cbn [bind] in X; [|discriminate]. destruct (to_bytes 2 s) as [y2|]; cbn [bind] in X; [|discriminate].
    destruct (to_bytes 2 reason) as [y3|]; cbn [bind] in X; [|discriminate]. apply (K _ (fun z => y ++ y2 ++ y3 ++ z)) in X. exact X.
  - right. eapply (G (2, 4)); [cbn; auto 8|exact E|]. intros h x X. cbv beta in X. destruct (to_bytes 2 d) as [y|]; cbn [bind] in X; [|discriminate]. destruct (to_bytes 2 s) as [y2|]; cbn [bind] in X; [|discriminate].
    apply (K _ (fun z => y ++ y2 ++ z)) in X. exact X.
  - left. vm_compute in E. injection E as <-. reflexivity.
Qed.
Lemma control_through : forall p b q, is_ackhdr p = false -> encode p = Ok b -> decode b = Ok q -> is_ackhdr q = false.
Proof.
  intros p b q AH E D. destruct (control_head p b AH E) as [-> |(h & t & -> & HI)]; [vm_compute in D; discriminate|]. clear E AH p.
  assert (G : forall (r : res npkt), r = Ok q -> (forall x, r = Ok x -> is_ackhdr x = false) -> is_ackhdr q = false) by (intros r R1 R2; auto).
  cbn [In] in HI. destruct HI as [<- |[<- |[<- |[<- |[<- |[<- |[]]]]]]]; unfold decode in D;
    repeat match type of D with context [?x =? ?y] => is_ground x; is_ground y; let v := eval vm_compute in (x =? y) in change (x =? y) with v in D end; cbn [orb] in D; cbv iota in D.
  all: repeat match type of D with
      | (let* _ := ?r in _) = _ => destruct r as [?|]; cbn [bind] in D; [|discriminate]
      | (let (_, _) := ?x in _) = _ => destruct x
      | (if ?b then _ else _) = _ => destruct b; [discriminate|]
      | done ?r _ = _ => destruct r; cbn [done] in D; [|discriminate]
      end; injection D as <-; reflexivity.
Qed.
Record INV (cfA : ncfg) (F : Z) (A B : conn) : Prop := mk_INV {
  v_si : SI cfA [] F A; v_F : F - 1 <= rcvd (cdata B); v_R : forall f, agrees f A -> R f onCD B }.
Lemma in_nat_seq : forall n k, 1 <= k <= n -> In k (nat_seq n).
Proof. intros n k H. unfold nat_seq. apply in_map_iff. exists (Z.to_nat k). split; [lia|]. apply in_seq. lia. Qed.
Lemma INV_hi : forall cfA F A B, INV cfA F A B -> asm_ok B -> rcvd (cdata B) <= hi (clog A).
Proof.
  intros cfA F A B [S1 S2 S3] AS. destruct (Z.le_gt_cases (rcvd (cdata B)) (hi (clog A))) as [L|L]; [exact L|exfalso].
  destruct (S3 _ (fA_agrees A) CD eq_refl) as [P _ D _]. cbn [getc] in *. pose proof (hi_nonneg (clog A)).
  assert (X : In NEmpty (map body (delivered CD (clog B)))).
  { rewrite D. apply in_map_iff. exists (hi (clog A) + 1). split; [|apply in_nat_seq; lia]. unfold fA. replace ((1 <=? hi (clog A) + 1) && (hi (clog A) + 1 <=? hi (clog A))) with false by lia. reflexivity. }
  apply in_map_iff in X as (p & X & IN). pose proof (as_data _ AS) as AD. rewrite Forall_forall in AD. specialize (AD p IN). destruct p; discriminate.
Qed.
Lemma moves_bound : forall l F G H r0, moves l F G -> F - 1 <= r0 -> r0 <= H -> H - 2046 <= F ->
  (forall n, In (CD, n) l -> exists r, n = r mod 4096 /\ 0 <= r <= r0 /\ H - r < 2048) -> G - 1 <= r0.
Proof.
  intros l F G H r0 M. induction M as [F|x l F G M IH|n a l F G N L M IH]; intros F1 R1 HF A; [exact F1|apply IH; auto; intros n IN; apply A; right; exact IN|].
  destruct (A n (or_introl eq_refl)) as (r & E & R2 & R3). assert (a = r) by lia. apply IH; [lia|exact R1|lia|]. intros k IN. apply A. right. exact IN.
Qed.
Lemma INV_A : forall cfA F A B e A', cfg_ok cfA -> INV cfA F A B -> TI B -> asm_ok B -> ev_from B A e -> cstep cfA A e = Ok A' -> exists F', INV cfA F' A' B.
Proof.
  intros cfA F A B e A' [PH QM] HV TB AB [EO EF] H. pose proof (INV_hi _ _ _ _ HV AB) as HI. destruct HV as [S1 S2 S3].
  destruct (step_moves _ _ _ _ _ QM PH EO S1 H) as (F' & SI' & MV). destruct (step_log _ _ _ _ PH EO H) as (m & L). exists F'. constructor; [exact SI'| |intros f AG; apply S3; eapply agrees_ext; eauto].
  eapply moves_bound; [exact MV|exact S2|exact HI|pose proof (si_hi _ _ _ _ S1); lia|]. intros n IN.
  destruct e; cbn [ev_acks] in IN; try destruct IN. assert (IE : In (CD, n) (eacks p)) by (destruct (cst A); try destruct IN; exact IN). clear IN.
  destruct EF as [EF|(p0 & g & b & P1 & P2 & P3 & P4 & P5)]; [unfold eacks in IE; rewrite EF in IE; destruct IE|].
  destruct (is_ackhdr p0) eqn:AH.
  - pose proof (t_log _ TB p0 g P1 AH) as LB. destruct (through p0 _ _ b p AH LB P2 P3) as (_ & _ & _ & _ & EA & _). rewrite EA in IE.
    destruct LB as (_ & _ & LB). destruct (LB n IE) as (r & G1 & G2 & G3). exists r. split; [exact G2|]. split; [exact G3|apply P5; exact G1].
  - exfalso. revert IE. unfold eacks. destruct (is_ackhdr p) eqn:AP; [|intros []]. exfalso. clear -P2 P3 AH AP.
    rewrite (control_through _ _ _ AH P2 P3) in AP. discriminate.
Qed.
Lemma INV_B : forall cfA cfB F A B e B', cfg_ok cfA -> 1 <= phase cfB -> INV cfA F A B -> TI A -> TI B -> asm_ok B -> ev_from A B e -> cstep cfB B e = Ok B' -> INV cfA F A B'.
Proof.
  intros cfA cfB F A B e B' [PA QA] PH HV TA TB AB [EO EF] H. pose proof (INV_hi _ _ _ _ HV AB) as HI. destruct HV as [S1 S2 S3].
  constructor; [exact S1|pose proof (step_rcvd _ _ _ _ PH EO H); lia|]. intros f AG. specialize (S3 f AG).
  assert (NS : no_seg (ev_arr e) -> R f onCD B') by (intros N; eapply rxq_R; [eapply step_rxq; eauto|exact S3]).
  destruct e; try (apply NS; exact I). cbn [ev_arr no_seg] in NS. destruct (is_seg p) eqn:SG; [|auto]. cbn [cstep] in H.
  destruct (chan_of p) eqn:CH; [|eapply recv_cross; eauto].
  assert (DP : is_data p = true) by (destruct p; try discriminate SG; try discriminate CH; reflexivity).
  destruct (takes (cst B)) eqn:T.
  2:{ assert (X : B' = B) by (unfold conn_recv in H; destruct p; try discriminate SG; destruct (cst B) eqn:S; try discriminate T; cbn in H; congruence). subst B'. exact S3. }
  destruct EF as [EF|(p0 & g & b & P1 & P2 & P3 & P4 & P5)]; [destruct p; discriminate|].
  destruct (is_ackhdr p0) eqn:AH; [|assert (Q : is_ackhdr p = false) by (eapply control_through; eauto); destruct p; discriminate].
  destruct (through p0 _ _ b p AH (t_log _ TA p0 g P1 AH) P2 P3) as (_ & _ & _ & DE & _ & DD). rewrite DP in DE. symmetry in DE. destruct (DD DE) as [D1 D2]. specialize (P4 DE).
  destruct (si_log _ _ _ _ S1 p0 g P1 DE) as (L1 & L2 & L3 & _). pose proof (hi_in _ _ P1) as L4. cbn [dseg] in L4. rewrite DE in L4.
  pose proof (rcvd_len f onCD B S3 CD eq_refl) as RL. cbn [getc] in RL. rewrite <- RL in P4.
  apply (recv_R f onCD cfB B p B' (g_seg g)); auto; rewrite ?CH; auto.
  - rewrite D2, L3. apply Z.mod_mod. lia.
  - rewrite (AG (g_seg g) (seg_of p0)); [|lia|exact L2]. rewrite <- D1. destruct p; try discriminate DP. reflexivity.
  - cbn [getc]. pose proof (si_hi _ _ _ _ S1). lia.
Qed.
Lemma INV_start : forall cfA cfB A B, cfg_ok cfA -> starts cfA A -> starts cfB B -> INV cfA 1 A B.
Proof.
  intros cfA cfB A B [PA QA] SA SB.
  assert (IB : (forall ch, acknum (getc B ch) = 0 /\ rcvd (getc B ch) = 0 /\ ooo (getc B ch) = []) /\ silent (clog B)).
  { destruct SB as [(src & dest & x & S)|(src & dest & p & P & S)]; [destruct (out_init _ _ _ _ _ S) as (X & Y & _)|destruct (in_init _ _ _ _ _ S) as (X & Y & _)]; auto. }
  destruct IB as [IB [SL _]]. constructor.
  - destruct SA as [(src & dest & x & S)|(src & dest & p & P & S)]; [eapply SI_outbound|eapply SI_inbound]; eauto; lia.
  - destruct (IB CD) as (_ & X & _). cbn [getc] in X. lia.
  - intros f _. apply init_R; auto.
Qed.
Lemma exec2_INV : forall cfA cfB A B, cfg_ok cfA -> cfg_ok cfB -> exec2 cfA cfB A B -> exists F, INV cfA F A B.
Proof.
  intros cfA cfB A B CA CB H. pose proof CA as [PA QA]. pose proof CB as [PB QB]. induction H as [A B SA SB|A B e A' H IH E S|A B e B' H IH E S].
  - exists 1. eapply INV_start; eauto.
  - destruct IH as (F & IH). pose proof (exec2_sym _ _ _ _ H) as H'. eapply INV_A; eauto; [eapply exec2_TI; eauto|eapply cexec_asm; [exact PB|eapply exec2_A; eauto]].
  - destruct IH as (F & IH). pose proof (exec2_sym _ _ _ _ H) as H'. exists F. eapply INV_B; eauto; [eapply exec2_TI; [exact PA|exact H]|eapply exec2_TI; eauto|eapply cexec_asm; [exact PB|eapply exec2_A; eauto]].
Qed.
(** The segments passed up are the first ones of those sent. *)
Lemma delivered_prefix : forall cfA F A B, INV cfA F A B -> asm_ok B ->
  map seg3 (delivered CD (clog B)) = firstn (Z.to_nat (rcvd (cdata B))) (content (clog A)) /\ rcvd (cdata B) <= zlen (content (clog A)).
Proof.
  intros cfA F A B HV AB. pose proof (INV_hi _ _ _ _ HV AB) as HI. destruct HV as [S1 S2 S3]. pose proof (hi_content _ _ _ S1) as HC. split; [|lia].
  destruct (S3 _ (fA_agrees A) CD eq_refl) as [P _ D _]. cbn [getc] in *.
  assert (X : map seg3 (delivered CD (clog B)) = map seg3 (map body (delivered CD (clog B)))).
  { rewrite map_map. apply map_ext_in. intros p IN. pose proof (as_data _ AB) as AD. rewrite Forall_forall in AD. specialize (AD p IN). destruct p; try discriminate AD. reflexivity. }
  rewrite X, D, map_map. clear X D. assert (K : forall k, (Z.of_nat k <= hi (clog A)) -> map (fun n => seg3 (fA A CD n)) (nat_seq (Z.of_nat k)) = firstn k (content (clog A))).
  { induction k as [|k IH]; intros L; [reflexivity|]. replace (Z.of_nat (S k)) with (Z.of_nat k + 1) in * by lia. rewrite nat_seq_snoc, map_app, IH by lia. cbn [map].
    destruct (nth_error (content (clog A)) k) as [s|] eqn:E; [|apply nth_error_None in E; unfold zlen in HC; lia].
    rewrite (firstn_S_nth _ _ _ _ E). do 2 f_equal. unfold fA. replace ((1 <=? Z.of_nat k + 1) && (Z.of_nat k + 1 <=? hi (clog A))) with true by lia.
    replace (Z.to_nat (Z.of_nat k + 1 - 1)) with k by lia. rewrite E. destruct s as [[bo eo] pl]. reflexivity. }
  rewrite <- (Z2Nat.id (rcvd (cdata B))) at 1 by exact P. apply K. lia.
Qed.
(** The messages behind the segments. *)
Definition msg1 (o : out) : list (Z * list Z) := match o with OAccepted z (x :: d) => [(z, x :: d)] | _ => [] end.
Lemma msgs_content : forall l, flat_map segments (flat_map msg1 l) = content l /\ map snd (flat_map msg1 l) = sent l.
Proof.
  induction l as [|o l [IH1 IH2]]; [split; reflexivity|]. unfold content, sent in *. cbn [flat_map]. rewrite flat_map_app, map_app, IH1, IH2.
  split; f_equal; destruct o; try reflexivity; destruct data; try reflexivity; cbn [msg1 flat_map segments app fst snd taken]; now rewrite app_nil_r.
Qed.
Lemma msgs_proper : forall A, ZI A -> Forall proper (flat_map msg1 (clog A)).
Proof.
  intros A [_ H]. apply Forall_forall. intros m IN. apply in_flat_map in IN as (o & O & IN). destruct o; try destruct IN. destruct data; [destruct IN|]. destruct IN as [<- |[]]. split; cbn [fst snd]; [eauto|discriminate].
Qed.

(** * Theorems *)
Lemma one_way : forall cfA cfB A B, cfg_ok cfA -> cfg_ok cfB -> exec2 cfA cfB A B ->
  (exists k, sc_msgs (clog B) = firstn k (sent (clog A))) /\ (cst A = Srun -> pending (cdata A) = [] -> sc_msgs (clog B) = sent (clog A)).
Proof.
  intros cfA cfB A B CA CB H. pose proof CA as [PA QA]. pose proof CB as [PB QB]. destruct (exec2_INV _ _ _ _ CA CB H) as (F & HV).
  pose proof (exec2_A _ _ _ _ (exec2_sym _ _ _ _ H)) as CXB. pose proof (cexec_asm _ _ PB CXB) as AB. destruct (delivered_prefix _ _ _ _ HV AB) as [D1 D2].
  destruct (msgs_content (clog A)) as [M1 M2]. pose proof (msgs_proper A (exec2_ZI _ _ _ _ PA H)) as MP.
  destruct (nsp_reassembled cfB B _ (skipn (Z.to_nat (rcvd (cdata B))) (content (clog A))) PB CXB MP) as [G1 (k & G2 & _)].
  { rewrite M1, D1. symmetry. apply firstn_skipn. }
  split; [exists k; rewrite G2, <- M2, firstn_map; reflexivity|]. intros ST Q. rewrite G1; [exact M2|]. apply skipn_all2.
  destruct HV as [S1 S2 S3]. destruct (si_q _ _ _ _ S1) as [(ctl & ds & [Q1 Q2 Q3 Q4 Q5 Q6 [Q7 _] Q8 Q9 Q10 Q11] & _)|[_ X]]; [|rewrite ST in X; discriminate].
  rewrite Q in Q1. symmetry in Q1. apply app_eq_nil in Q1 as [-> -> ]. change (zlen (@nil seg)) with 0 in Q7. change (zlen (@nil txe)) with 0 in Q4. rewrite Z.sub_0_r in Q7.
  assert (E : zlen (content (clog A)) = F - 1) by (etransitivity; [symmetry; exact Q7|lia]). apply Nat2Z.inj_le. rewrite Z2Nat.id by lia. eapply Z.le_trans; [apply Z.eq_le_incl; exact E|exact S2].
Qed.
(** Whatever the network does, what either user has been given is a prefix of
    what the other user has sent. *)
Theorem nsp_end_to_end : forall cfA cfB A B, cfg_ok cfA -> cfg_ok cfB -> exec2 cfA cfB A B ->
  (exists k, sc_msgs (clog B) = firstn k (sent (clog A))) /\ (exists k, sc_msgs (clog A) = firstn k (sent (clog B))).
Proof. intros cfA cfB A B CA CB H. split; [apply (one_way cfA cfB A B CA CB H)|apply (one_way cfB cfA B A CB CA (exec2_sym _ _ _ _ H))]. Qed.
Print Assumptions nsp_end_to_end.
(** When a connection in the RUN state has nothing left to acknowledge,
    everything sent on it has been given to the user at the other end. *)
Theorem nsp_acknowledged_delivered : forall cfA cfB A B, cfg_ok cfA -> cfg_ok cfB -> exec2 cfA cfB A B ->
  (cst A = Srun -> pending (cdata A) = [] -> sc_msgs (clog B) = sent (clog A)) /\ (cst B = Srun -> pending (cdata B) = [] -> sc_msgs (clog A) = sent (clog B)).
Proof. intros cfA cfB A B CA CB H. split; [apply (one_way cfA cfB A B CA CB H)|apply (one_way cfB cfA B A CB CA (exec2_sym _ _ _ _ H))]. Qed.
Print Assumptions nsp_acknowledged_delivered.

(** * A concrete case *)
(** Steps that are checked to be steps of [exec2]: a local event or a control
    packet at one end, or the i-th thing in the log of the other end. *)
Inductive wev := WA (e : cev) | WB (e : cev) | WtoA (i : nat) | WtoB (i : nat).
Definition local (e : cev) : bool := match e with VRecv q => negb (is_ackhdr q) && (match q with NCC _ _ _ _ z _ => 0 <=? z | _ => true end) | _ => true end.
Definition copy (src dst : conn) (i : nat) : option npkt :=
  match nth_error (clog src) i with
  | Some (OTx p g) => match encode p with Ok b => match decode b with Ok q =>
      if (negb (is_data p) || (zlen (delivered CD (clog dst)) - 2048 <? g_seg g)) && (match g_d g with Some r => hi (clog dst) - r <? 2048 | None => true end)
         && (match q with NCC _ _ _ _ z _ => 0 <=? z | _ => true end) then Some q else None
      | _ => None end | _ => None end
  | _ => None end.
Definition onA (cf : ncfg) (w : conn * conn) (e : cev) : option (conn * conn) := match cstep cf (fst w) e with Ok A => Some (A, snd w) | _ => None end.
Definition onB (cf : ncfg) (w : conn * conn) (e : cev) : option (conn * conn) := match cstep cf (snd w) e with Ok B => Some (fst w, B) | _ => None end.
Definition wstep (cfA cfB : ncfg) (w : conn * conn) (e : wev) : option (conn * conn) :=
  match e with
  | WA e => if local e then onA cfA w e else None
  | WB e => if local e then onB cfB w e else None
  | WtoA i => match copy (snd w) (fst w) i with Some q => onA cfA w (VRecv q) | None => None end
  | WtoB i => match copy (fst w) (snd w) i with Some q => onB cfB w (VRecv q) | None => None end
  end.
Fixpoint wrun (cfA cfB : ncfg) (w : conn * conn) (l : list wev) : option (conn * conn) :=
  match l with [] => Some w | e :: t => match wstep cfA cfB w e with Some w' => wrun cfA cfB w' t | None => None end end.
Lemma local_from : forall e src dst, local e = true -> ev_from src dst e.
Proof.
  intros e src dst H. destruct e; try (split; exact I). cbn [local] in H. apply andb_prop in H as [H1 H2]. split.
  - cbn [ev_ok]. destruct p; try exact I. cbn [pkt_size_ok]. lia.
  - left. destruct (is_ackhdr p); [discriminate|reflexivity].
Qed.
Lemma copy_from : forall src dst i q, copy src dst i = Some q -> ev_from src dst (VRecv q).
Proof.
  intros src dst i q H. unfold copy in H. destruct (nth_error (clog src) i) as [[]|] eqn:N; try discriminate. destruct (encode p) as [b|] eqn:E; [|discriminate]. destruct (decode b) as [q'|] eqn:D; [|discriminate].
  destruct (_ && _) eqn:C in H; [|discriminate]. assert (q' = q) by congruence. subst q'. apply andb_prop in C as [C C3]. apply andb_prop in C as [C1 C2]. split.
  - cbn [ev_ok]. destruct q; try exact I. cbn [pkt_size_ok]. lia.
  - right. exists p, g, b. split; [eapply nth_error_In; eauto|]. repeat (split; [assumption|]). split; [intros X; rewrite X in C1; cbn [negb orb] in C1; lia|].
    intros r X. rewrite X in C2. lia.
Qed.
Lemma wrun_exec2 : forall cfA cfB l w w', exec2 cfA cfB (fst w) (snd w) -> wrun cfA cfB w l = Some w' -> exec2 cfA cfB (fst w') (snd w').
Proof.
  intros cfA cfB l. induction l as [|e l IH]; intros w w' X H; cbn [wrun] in H; [injection H as <-; exact X|].
  destruct (wstep cfA cfB w e) as [w1|] eqn:S; [|discriminate]. apply (IH w1); [|exact H]. clear IH H. destruct w as [A B]. cbn [fst snd] in *.
  assert (GA : forall e, ev_from B A e -> onA cfA (A, B) e = Some w1 -> exec2 cfA cfB (fst w1) (snd w1)).
  { intros e0 E O. unfold onA in O. cbn [fst snd] in O. destruct (cstep cfA A e0) eqn:C; [|discriminate]. injection O as <-. eapply x_A; eauto. }
  assert (GB : forall e, ev_from A B e -> onB cfB (A, B) e = Some w1 -> exec2 cfA cfB (fst w1) (snd w1)).
  { intros e0 E O. unfold onB in O. cbn [fst snd] in O. destruct (cstep cfB B e0) eqn:C; [|discriminate]. injection O as <-. eapply x_B; eauto. }
  destruct e as [e|e|i|i]; cbn [wstep fst snd] in S.
  - destruct (local e) eqn:L; [|discriminate]. apply (GA e); [now apply local_from|exact S].
  - destruct (local e) eqn:L; [|discriminate]. apply (GB e); [now apply local_from|exact S].
  - destruct (copy B A i) eqn:L; [|discriminate]. eapply GA; [eapply copy_from; eauto|exact S].
  - destruct (copy A B i) eqn:L; [|discriminate]. eapply GB; [eapply copy_from; eauto|exact S].
Qed.
(** B sends a message of three segments: the first copy of the first segment is
    late, the second segment arrives early and twice, the first is sent again,
    and the late copy comes last.  Then A sends a message. *)
Definition wx_cfg : ncfg := mk_ncfg 4 2 5 2.
Definition wx_nil : conn := mk_conn Sci 0 0 0 false (0, []) [] 0 0 false false new_data new_other [].
Definition wx_ci : npkt := NCI false 100 0 2 2 [].
Definition wx_A : conn := match conn_outbound wx_cfg 100 2049 [] with Ok c => c | _ => wx_nil end.
Definition wx_B : conn := match conn_inbound wx_cfg 200 2050 wx_ci with Ok c => c | _ => wx_nil end.
Definition wx_evs : list wev :=
  [WB (VAccept []); WtoA 2; WtoB 1; WB (VSend [1; 2; 3; 4; 5]); WtoA 6; WtoA 6; WB (VRetx CD 0); WtoA 7; WA (VHold CD); WtoB 5; WtoA 8; WtoA 5; WA (VSend [7; 8]); WtoB 8; WtoB 11].
Example nsp_end_to_end_example : cfg_ok wx_cfg /\ exists A B, exec2 wx_cfg wx_cfg A B /\ cst A = Srun /\ cst B = Srun /\ pending (cdata B) = [] /\
  sent (clog B) = [[1; 2; 3; 4; 5]] /\ sc_msgs (clog A) = [[1; 2; 3; 4; 5]] /\ sc_msgs (clog B) = [[7; 8]].
Proof.
  split; [unfold cfg_ok; cbn; lia|]. assert (S : exec2 wx_cfg wx_cfg wx_A wx_B).
  { apply x_start; [left; exists 100, 2049, []; vm_compute; reflexivity|right; exists 200, 2050, wx_ci; split; [cbn; lia|vm_compute; reflexivity]]. }
  destruct (wrun wx_cfg wx_cfg (wx_A, wx_B) wx_evs) as [w|] eqn:E; [|vm_compute in E; discriminate]. exists (fst w), (snd w).
  split; [eapply wrun_exec2; [|exact E]; exact S|]. vm_compute in E. injection E as <-. vm_compute. repeat (split; [reflexivity|]). reflexivity.
Qed.
