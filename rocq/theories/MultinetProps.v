(** Properties C30, C43 and C44: Multinet framing and the status reports of
    point to point datalinks. *)
From Verif Require Import Base MultinetModel.

(** *** C43 *)
(** Specification: the byte stream for a sequence of messages. *)
Fixpoint stream (msgs : list (list Z)) : list Z :=
  match msgs with
  | [] => []
  | m :: t => [zlen m mod 256; zlen m / 256; 0; 0] ++ m ++ stream t
  end.
Definition sendable (m : list Z) : Prop := zlen m < 65536.
Definition pieces (s : list (list Z)) : Prop := Forall (fun seg => seg <> []) s.

Theorem tcp_frame_stream : forall m, sendable m -> tcp_frame m = Ok (stream [m]).
Proof.
  intros m H. unfold tcp_frame, sendable in *. pose proof (zlen_nonneg _ m).
  rewrite to_bytes_ok by (change (256 ^ Z.of_nat 2) with 65536; lia). cbn [bind stream le_enc app]. rewrite app_nil_r.
  replace ((zlen m / 256) mod 256) with (zlen m / 256) by lia. reflexivity.
Qed.
Theorem tcp_frame_long : forall m, ~ sendable m -> tcp_frame m = Err EOverflow.
Proof.
  intros m H. unfold tcp_frame, sendable in *. pose proof (zlen_nonneg _ m). unfold to_bytes.
  change (256 ^ Z.of_nat 2) with 65536. destruct (Z.ltb_spec (zlen m) 65536); [lia|].
  rewrite andb_false_r. reflexivity.
Qed.

Lemma recvall_spec : forall s n ret, pieces s -> zlen ret <= n ->
  match recvall n ret s with
  | Some (r, s') => zlen r = n /\ ret ++ concat s = r ++ concat s' /\ pieces s'
  | None => zlen (ret ++ concat s) < n
  end.
Proof.
  induction s as [|seg s IH]; intros n ret P L.
  - cbn [recvall concat]. rewrite app_nil_r. destruct (Z.leb_spec n (zlen ret)); [|lia]. split; [lia|].
    split; [cbn [concat]; rewrite app_nil_r; auto|auto].
  - inversion P; subst. cbn [recvall]. destruct (Z.leb_spec n (zlen ret)).
    { split; [lia|]. split; auto. }
    destruct seg as [|x seg]; [contradiction|]. set (sg := x :: seg) in *.
    destruct (Z.leb_spec (zlen sg) (n - zlen ret)).
    + specialize (IH n (ret ++ sg) H2). rewrite zlen_app in IH. specialize (IH ltac:(lia)).
      cbn [concat]. rewrite <- app_assoc in IH. exact IH.
    + cbn [concat]. rewrite zlen_app, zlen_upto by lia. split; [lia|]. split.
      * rewrite <- app_assoc. f_equal. rewrite app_assoc, upto_from. reflexivity.
      * constructor; auto. intros E. assert (X : zlen (from (n - zlen ret) sg) = 0) by (rewrite E; reflexivity).
        rewrite zlen_from in X by lia. lia.
Qed.
Lemma app_eq_len : forall (a b c d : list Z), zlen a = zlen c -> a ++ b = c ++ d -> a = c /\ b = d.
Proof.
  induction a as [|x a IH]; destruct c as [|y c]; intros d L E; rewrite ?zlen_cons, ?zlen_nil in L;
    try (pose proof (zlen_nonneg _ a); lia); try (pose proof (zlen_nonneg _ c); lia); auto.
  cbn [app] in E. injection E as -> E. destruct (IH b c d) as [-> ->]; auto. lia.
Qed.
(** Whole messages within the first n bytes of the stream. *)
Fixpoint whole (msgs : list (list Z)) (n : Z) : list (list Z) :=
  match msgs with
  | [] => []
  | m :: t => if zlen m + 4 <=? n then m :: whole t (n - (zlen m + 4)) else []
  end.
Lemma receive_loop_spec : forall fuel s msgs tl, pieces s -> Forall sendable msgs ->
  (length (concat s) <= fuel)%nat -> stream msgs = concat s ++ tl ->
  receive_loop fuel s = whole msgs (zlen (concat s)).
Proof.
  induction fuel as [|f IH]; intros s msgs tl P S F E.
  - assert (C : concat s = []) by (destruct (concat s); cbn [length] in F; [auto|lia]).
    rewrite C. destruct msgs as [|m t]; auto. cbn [receive_loop whole]. pose proof (zlen_nonneg _ m).
    destruct (Z.leb_spec (zlen m + 4) (zlen (@nil Z))); [|auto]. rewrite zlen_nil in *. lia.
  - cbn [receive_loop]. pose proof (recvall_spec s 4 [] P ltac:(rewrite zlen_nil; lia)) as R1.
    destruct (recvall 4 [] s) as [[h s1]|].
    + destruct R1 as (Lh & C1 & P1). cbn [app] in C1. rewrite C1 in E.
      destruct msgs as [|m t].
      { cbn [stream] in E. destruct h; [discriminate Lh|discriminate E]. }
      inversion S; subst. pose proof (zlen_nonneg _ m). unfold sendable in H1. cbn [stream] in E. rewrite <- !app_assoc in E.
      apply app_eq_len in E; [|rewrite Lh; reflexivity]. destruct E as [Eh E]. subst h.
      assert (LEN : le_dec (upto 2 [zlen m mod 256; zlen m / 256; 0; 0]) = zlen m).
      { change (upto 2 [zlen m mod 256; zlen m / 256; 0; 0]) with [zlen m mod 256; zlen m / 256]. cbn [le_dec]. lia. }
      rewrite LEN. pose proof (recvall_spec s1 (zlen m) [] P1 ltac:(rewrite zlen_nil; lia)) as R2.
      cbn [whole]. rewrite C1, zlen_app, Lh.
      destruct (recvall (zlen m) [] s1) as [[r s2]|].
      * destruct R2 as (Lr & C2 & P2). cbn [app] in C2. rewrite C2 in E. rewrite <- app_assoc in E.
        apply app_eq_len in E; [|lia]. destruct E as [<- E]. rewrite C2, zlen_app. pose proof (zlen_nonneg _ (concat s2)).
        destruct (Z.leb_spec (zlen m + 4) (4 + (zlen m + zlen (concat s2)))); [|lia]. f_equal.
        replace (4 + (zlen m + zlen (concat s2)) - (zlen m + 4)) with (zlen (concat s2)) by lia.
        apply (IH s2 t tl); auto. rewrite C1, C2, !app_length in F. cbn [length] in F. lia.
      * cbn [app] in R2. destruct (Z.leb_spec (zlen m + 4) (4 + zlen (concat s1))); [lia|reflexivity].
    + cbn [app] in R1. destruct msgs as [|m t]; auto. cbn [whole]. pose proof (zlen_nonneg _ m).
      destruct (Z.leb_spec (zlen m + 4) (zlen (concat s))); [lia|reflexivity].
Qed.
Lemma whole_all : forall msgs n, zlen (stream msgs) <= n -> whole msgs n = msgs.
Proof.
  induction msgs as [|m t IH]; intros n H; cbn [whole]; auto. cbn [stream] in H. rewrite !zlen_app in H.
  change (zlen [zlen m mod 256; zlen m / 256; 0; 0]) with 4 in H. pose proof (zlen_nonneg _ (stream t)).
  destruct (Z.leb_spec (zlen m + 4) n); [|lia]. f_equal. apply IH. lia.
Qed.
Lemma whole_prefix : forall msgs n, exists rest, msgs = whole msgs n ++ rest /\
  (rest <> [] -> n < zlen (stream (whole msgs n ++ firstn 1 rest))).
Proof.
  induction msgs as [|m t IH]; intros n; cbn [whole].
  - exists []. split; auto. intros X. contradiction.
  - destruct (Z.leb_spec (zlen m + 4) n).
    + destruct (IH (n - (zlen m + 4))) as (rest & E & M). exists rest. split; [rewrite E at 1; reflexivity|].
      intros N. specialize (M N). cbn [app]. cbn [stream]. rewrite !zlen_app.
      change (zlen [zlen m mod 256; zlen m / 256; 0; 0]) with 4. lia.
    + exists (m :: t). split; auto. intros _. cbn [app firstn]. cbn [stream]. rewrite !zlen_app.
      change (zlen [zlen m mod 256; zlen m / 256; 0; 0]) with 4. rewrite zlen_nil. lia.
Qed.
(** For every sequence of messages and every way the stream is cut into
    pieces, the messages received are those sent. *)
Theorem tcp_delivery : forall msgs s, Forall sendable msgs -> pieces s -> concat s = stream msgs ->
  tcp_receive s = msgs.
Proof.
  intros msgs s S P E. unfold tcp_receive. rewrite (receive_loop_spec _ s msgs []); auto.
  - rewrite E. apply whole_all. lia.
  - rewrite app_nil_r. auto.
Qed.
Print Assumptions tcp_delivery.
(** If the connection ends early, the messages received are the longest prefix
    that was completely transferred. *)
Theorem tcp_delivery_prefix : forall msgs s tl, Forall sendable msgs -> pieces s -> stream msgs = concat s ++ tl ->
  exists rest, msgs = tcp_receive s ++ rest /\
    (rest <> [] -> zlen (concat s) < zlen (stream (tcp_receive s ++ firstn 1 rest))).
Proof.
  intros msgs s tl S P E. unfold tcp_receive. rewrite (receive_loop_spec _ s msgs tl); auto. apply whole_prefix.
Qed.
Print Assumptions tcp_delivery_prefix.
(** socket.send may accept only part of the data; the rest is then silently
    lost and the peer gets out of step: a message that was never sent is
    delivered. *)
Theorem tcp_short_send_refuted : exists m1 m2 k, sendable m1 /\ sendable m2 /\ 0 < k < zlen (stream [m1]) /\
  exists x, In x (tcp_receive [upto k (stream [m1]); stream [m2]]) /\ x <> m1 /\ x <> m2.
Proof.
  exists [1; 2; 3; 4], [5; 6; 7], 6. unfold sendable. change (zlen (stream [[1; 2; 3; 4]])) with 8.
  change (zlen [1; 2; 3; 4]) with 4. change (zlen [5; 6; 7]) with 3.
  split; [lia|]. split; [lia|]. split; [lia|]. exists [1; 2; 3; 0]. vm_compute. split; [auto|]. split; discriminate.
Qed.
Print Assumptions tcp_short_send_refuted.
Example tcp_demo : tcp_receive [[3]; [0; 0]; [0; 7; 8]; [9; 0; 0; 0; 0; 1; 0]; [0; 0; 5]; [2]] = [[7; 8; 9]; []; [5]] /\
  pieces [[3]; [0; 0]; [0; 7; 8]; [9; 0; 0; 0; 0; 1; 0]; [0; 0; 5]; [2]].
Proof. split; [reflexivity|]. repeat constructor; discriminate. Qed.

(** *** C44 *)
Fixpoint udp_sends (seq : Z) (msgs : list (list Z)) : res (Z * list (list Z)) :=
  match msgs with
  | [] => Ok (seq, [])
  | m :: t => let* (seq, d) := udp_send seq m in let* (seq, ds) := udp_sends seq t in Ok (seq, d :: ds)
  end.
(** The n-th datagram sent carries n modulo 65536 and the n-th message. *)
Lemma udp_sends_spec : forall msgs seq, 0 <= seq < 65536 ->
  exists ds, udp_sends seq msgs = Ok ((seq + zlen msgs) mod 65536, ds) /\ length ds = length msgs /\
  forall n m, nth_error msgs n = Some m ->
    nth_error ds n = Some (le_enc 2 ((seq + Z.of_nat n) mod 65536) ++ [0; 0] ++ m).
Proof.
  induction msgs as [|m t IH]; intros seq H.
  - exists []. cbn [udp_sends]. rewrite zlen_nil, Z.add_0_r, Z.mod_small by lia. split; auto. split; auto. intros [|n]; discriminate.
  - cbn [udp_sends]. unfold udp_send. rewrite to_bytes_ok by (change (256 ^ Z.of_nat 2) with 65536; lia). cbn [bind].
    change 65535 with (Z.ones 16). rewrite Z.land_ones by lia. change (2 ^ 16) with 65536.
    destruct (IH ((seq + 1) mod 65536) ltac:(lia)) as (ds & E & L & N). rewrite E. cbn [bind]. eexists. split.
    { rewrite zlen_cons. f_equal. f_equal. rewrite Zplus_mod_idemp_l. f_equal. lia. }
    split; [cbn [length]; lia|]. intros [|n] x X; cbn [nth_error] in *.
    + injection X as <-. rewrite Z.add_0_r, Z.mod_small by lia. reflexivity.
    + rewrite (N n x X), Zplus_mod_idemp_l. do 3 f_equal. f_equal. lia.
Qed.
Theorem udp_sequence : forall msgs, exists ds, udp_sends 0 msgs = Ok (zlen msgs mod 65536, ds) /\
  length ds = length msgs /\
  forall n m, nth_error msgs n = Some m -> nth_error ds n = Some (le_enc 2 (Z.of_nat n mod 65536) ++ [0; 0] ++ m).
Proof. intros msgs. exact (udp_sends_spec msgs 0 ltac:(lia)). Qed.
Print Assumptions udp_sequence.
(** Every message of 1 to 1496 bytes is received as sent; runts and datagrams
    from other senders are dropped, and no delivered payload is empty. *)
Theorem udp_round_trip : forall seq m seq' d, udp_send seq m = Ok (seq', d) -> 1 <= zlen m <= 1496 ->
  udp_receive true d = Some m.
Proof.
  intros seq m seq' d H L. unfold udp_send in H. destruct (to_bytes 2 seq) as [h|] eqn:T; [|discriminate].
  cbn [bind] in H. assert (D : d = h ++ [0; 0] ++ m) by congruence. unfold to_bytes in T.
  destruct ((0 <=? seq) && (seq <? 256 ^ Z.of_nat 2)); [|discriminate T]. assert (Eh : h = le_enc 2 seq) by congruence.
  rewrite D, Eh. unfold udp_receive.
  assert (LD : zlen (le_enc 2 seq ++ [0; 0] ++ m) = 4 + zlen m).
  { rewrite !zlen_app, zlen_le_enc. change (zlen [0; 0]) with 2. lia. }
  assert (U : upto 1500 (le_enc 2 seq ++ [0; 0] ++ m) = le_enc 2 seq ++ [0; 0] ++ m).
  { unfold upto. apply firstn_all2. unfold zlen in LD, L. lia. }
  rewrite U, LD. destruct (Z.leb_spec (4 + zlen m) 4); [lia|]. reflexivity.
Qed.
Theorem udp_no_runts : forall v d x, udp_receive v d = Some x -> v = true /\ x = firstn 1496 (skipn 4 d) /\ x <> [].
Proof.
  intros v d x H. unfold udp_receive in H. destruct (Z.leb_spec (zlen (upto 1500 d)) 4); [discriminate|].
  destruct v; [|discriminate]. cbn [negb] in H. injection H as <-. split; auto. split.
  - unfold from, upto. change (Z.to_nat 4) with 4%nat. change (Z.to_nat 1500) with (4 + 1496)%nat.
    destruct d as [|? [|? [|? [|? ?]]]]; reflexivity.
  - intros E. assert (X : zlen (from 4 (upto 1500 d)) = 0) by (rewrite E; reflexivity). rewrite zlen_from in X by lia. lia.
Qed.
Print Assumptions udp_no_runts.
(** A message longer than 1496 bytes is delivered cut short. *)
Theorem udp_long_refuted : exists m seq' d x, udp_send 0 m = Ok (seq', d) /\ udp_receive true d = Some x /\ x <> m.
Proof.
  exists (repeat 1 1497). do 3 eexists. split; [reflexivity|]. split; [vm_compute; reflexivity|]. 
  intros E. apply (f_equal (@length Z)) in E. discriminate E.
Qed.
Example udp_demo : udp_sends 65535 [[9]; [8; 7]] = Ok (1, [[255; 255; 0; 0; 9]; [0; 0; 0; 0; 8; 7]]).
Proof. reflexivity. Qed.

(** *** C30 *)
(** Specification: what the port owner may see.  Up and Down alternate,
    starting with Up, and data arrives only between an Up and the next Down. *)
Fixpoint owner_view (up : bool) (l : list out) : Prop :=
  match l with
  | [] => True
  | Up :: t => up = false /\ owner_view true t
  | Down :: t => up = true /\ owner_view false t
  | Data _ :: t => up = true /\ owner_view up t
  | _ :: t => owner_view up t
  end.
Fixpoint final (up : bool) (l : list out) : bool :=
  match l with
  | [] => up
  | Up :: t => final true t
  | Down :: t => final false t
  | _ :: t => final up t
  end.
Lemma owner_view_app : forall a b up, owner_view up (a ++ b) <-> owner_view up a /\ owner_view (final up a) b.
Proof.
  induction a as [|x a IH]; intros b up; cbn [app owner_view final]; [tauto|].
  destruct x; cbn [owner_view final]; rewrite IH; tauto.
Qed.
Lemma final_app : forall a b up, final up (a ++ b) = final (final up a) b.
Proof. induction a as [|x a IH]; intros b up; cbn [app final]; auto. destruct x; auto. Qed.

Definition up_ok (d : dl) : Prop := is_up d = can_send d.
Lemma dispatch_ok : forall d i d' o, port d = true -> up_ok d -> dispatch d i = (d', o) ->
  port d' = true /\ up_ok d' /\ owner_view (is_up d) o /\ final (is_up d) o = is_up d'.
Proof.
  intros [s u t n p] i d' o P U H. unfold up_ok, can_send in U. cbn [port is_up st] in P, U. subst p u.
  unfold dispatch, validate, action, handle_reconnect, handle_stop, reconnecting_go, report_down, report_up, up_ok in *.
  destruct s, t, n, i as [| | |now| | | |pk]; try destruct now; cbn in H; injection H as <- <-; cbn; auto 10.
Qed.
Lemma run_ok : forall l d d' o, port d = true -> up_ok d -> run d l = (d', o) ->
  up_ok d' /\ owner_view (is_up d) o /\ final (is_up d) o = is_up d'.
Proof.
  induction l as [|i l IH]; intros d d' o P U H; cbn [run] in H.
  - injection H as <- <-. cbn. auto.
  - destruct (dispatch d i) as [d1 o1] eqn:D. destruct (run d1 l) as [d2 o2] eqn:R. injection H as <- <-.
    apply dispatch_ok in D as (P1 & U1 & V1 & F1); auto. apply IH in R as (U2 & V2 & F2); auto.
    split; auto. rewrite owner_view_app, final_app, F1. auto.
Qed.
(** For every sequence of work items. *)
Theorem status_alternates : forall l d o, run (dl_init true) l = (d, o) -> owner_view false o.
Proof. intros l d o H. apply run_ok in H as (_ & V & _); [exact V|reflexivity|reflexivity]. Qed.
Print Assumptions status_alternates.
(** The last status reported is the one in effect: the link is reported up iff
    it is in the Running state, where it accepts packets to send. *)
Theorem status_accurate : forall l d o, run (dl_init true) l = (d, o) -> final false o = can_send d.
Proof. intros l d o H. apply run_ok in H as (U & _ & F); [|reflexivity|reflexivity]. rewrite <- U. exact F. Qed.
Print Assumptions status_accurate.
(** Losing the thread, stopping or restarting always takes the link down. *)
Theorem status_down : forall l i d o, run (dl_init true) (l ++ [i]) = (d, o) ->
  match i with ThreadExit | Stop | Restart | Reconnect _ => True | _ => False end ->
  final false o = false /\ st d <> Running.
Proof.
  intros l i d o H K. assert (F := status_accurate _ _ _ H).
  assert (X : can_send d = false).
  { clear F. revert o H. generalize (dl_init true). induction l as [|j l IH]; intros d0 o H.
    - cbn [app run] in H. destruct (dispatch d0 i) as [d1 o1] eqn:D. injection H as <- _.
      destruct d0 as [s u t n p].
      unfold dispatch, validate, action, handle_reconnect, handle_stop, reconnecting_go, report_down, report_up in D.
      destruct s, u, t, n, i as [| | |now| | | |pk]; try destruct now; try contradiction; cbn in D; injection D as <- _; reflexivity.
    - cbn [app run] in H. destruct (dispatch d0 j) as [d1 o1]. destruct (run d1 (l ++ [i])) as [d2 o2] eqn:R.
      injection H as <- _. eapply IH. exact R. }
  split; [rewrite F; auto|]. intros E. unfold can_send in X. rewrite E in X. discriminate.
Qed.
Print Assumptions status_down.
(** A restart or reconnect ends in a disconnect followed by a new start, at once
    if asked for, otherwise by timer; with a receive thread running only after it
    has stopped.  What was up is reported down before. *)
Definition now_of (i : item) : option bool := match i with Restart => Some true | Reconnect n => Some n | _ => None end.
Theorem status_reconnect : forall d i now, port d = true -> now_of i = Some now ->
  let down := if is_up d then [Down] else [] in
  let again := [Disconnect; if now then QStart else SetTimer] in
  let next := if now then S0 else Reconnecting in
  let '(d1, o1) := dispatch d i in
  is_up d1 = false /\
  if thread d then o1 = StopThread :: down /\ st d1 = Reconnecting /\ let '(d2, o2) := dispatch d1 ThreadExit in o2 = again /\ st d2 = next /\ thread d2 = false
  else o1 = down ++ again /\ st d1 = next /\ thread d1 = false.
Proof.
  intros [s u t n p] i now P N. cbn [port] in P. subst p.
  destruct i as [| | |m| | | |pk]; try discriminate N; injection N as <-; destruct u, t; try destruct m; vm_compute; repeat split.
Qed.
Print Assumptions status_reconnect.
(** A connect timer that expires while the datalink waits for its receive
    thread to exit starts the next connection attempt under the old thread. *)
Theorem stale_timer_refuted : exists l d o, run (dl_init true) l = (d, o) /\ st d = Connecting /\ thread d = true /\
  In Connect (skipn 4 o) /\ ~ In NewThread (skipn 4 o) /\ ~ In Disconnect o.
Proof.
  exists [Start; Connected; Reconnect false; Timeout; Start]. do 2 eexists. split; [vm_compute; reflexivity|].
  split; [reflexivity|]. split; [reflexivity|]. vm_compute. intuition discriminate.
Qed.
Example status_demo : snd (run (dl_init true)
   [Start; Received [1]; Connected; Received [2]; ThreadExit; Timeout; Start; Connected; Received [3]; Stop; Received [4]; ThreadExit]) =
  [Connect; NewThread; Up; Data [2]; Down; Disconnect; SetTimer; QStart; Connect; NewThread; Up; Data [3]; StopThread; Down; Disconnect].
Proof. reflexivity. Qed.
