(** Properties C42 and C45: Ethernet and GRE framing. *)
From Verif Require Import Base Dict LanModel.

(** *** Specification: the frame formats. *)
Definition pad_bytes (n : Z) : list Z := repeat 66 (Z.to_nat n).
Definition eth_frame (pd : bool) (dest src pr msg : list Z) : list Z :=
  let hdr := dest ++ src ++ pr ++ (if pd then le_enc 2 (zlen msg) else []) in
  hdr ++ msg ++ pad_bytes (60 - zlen hdr - zlen msg).
Definition gre_frame (pd : bool) (pr msg : list Z) : list Z :=
  [0; 0] ++ pr ++ (if pd then le_enc 2 (zlen msg) else []) ++ msg.

(** Ports as created and used: 6 byte addresses, a protocol type above the
    802.3 length range, and a buffer holding the protocol type. *)
Definition port_ok (p : port) : Prop :=
  zlen (mac p) = 6 /\ zlen (proto p) = 2 /\ bytes_ok (proto p) /\
  exists a c, frame p = a ++ proto p ++ c /\ zlen a = 12 /\ zlen c = 1500.
Definition gport_ok (p : port) : Prop :=
  zlen (proto p) = 2 /\ exists c, frame p = [0; 0] ++ proto p ++ c /\ zlen c = 1500.

Lemma pkey_decides : decides pkey_eqb.
Proof.
  intros [x|x] [y|y]; cbn; split; intros H; try discriminate.
  - apply leqb_eq in H. congruence.
  - apply leqb_eq. congruence.
  - apply Z.eqb_eq in H. congruence.
  - apply Z.eqb_eq. congruence.
Qed.
Lemma split_at : forall (l : list Z) n, 0 <= n <= zlen l ->
  exists a b, l = a ++ b /\ zlen a = n /\ zlen b = zlen l - n.
Proof.
  intros l n H. exists (upto n l), (from n l). rewrite upto_from, zlen_upto, zlen_from by lia. auto.
Qed.
Lemma put_app : forall a m c p b, zlen a = p -> zlen m = zlen b -> put (a ++ m ++ c) p b = a ++ b ++ c.
Proof.
  intros a m c p b Ha Hm. unfold put. rewrite upto_app_exact by auto. f_equal. f_equal.
  rewrite app_assoc. apply from_app_exact. rewrite zlen_app. lia.
Qed.
Lemma le2 : forall l, 0 <= l < 65536 -> [Z.land l 255; Z.shiftr l 8] = le_enc 2 l.
Proof.
  intros l H. cbn [le_enc]. change 255 with (Z.ones 8). rewrite Z.land_ones, Z.shiftr_div_pow2 by lia.
  change (2 ^ 8) with 256. f_equal. f_equal. lia.
Qed.
Lemma fill_slice : forall l, 0 <= l <= 60 -> upto (60 - l) (from l fill) = pad_bytes (60 - l).
Proof.
  intros l H. unfold upto, from, fill, pad_bytes.
  replace 60%nat with (Z.to_nat l + Z.to_nat (60 - l))%nat by lia. rewrite repeat_app.
  assert (E : forall (A : Type) n (x : A) r, skipn n (repeat x n ++ r) = r) by (induction n; intros; cbn; auto).
  rewrite E. rewrite <- (repeat_length 66 (Z.to_nat (60 - l))) at 1. apply firstn_all.
Qed.
Lemma zlen_pad : forall n, zlen (pad_bytes n) = Z.max 0 n.
Proof. intros. unfold pad_bytes, zlen. rewrite repeat_length. lia. Qed.
Lemma pad_bytes_neg : forall n, n <= 0 -> pad_bytes n = [].
Proof. intros. unfold pad_bytes. replace (Z.to_nat n) with O by lia. reflexivity. Qed.

(** What is transmitted: exactly the frame for this message, with nothing of
    what the buffer held before; too long messages are refused. *)
Theorem eth_sends_frame : forall p msg dest, port_ok p -> zlen dest = 6 ->
  zlen msg <= (if pad p then 1498 else 1500) ->
  exists p', eth_send p msg dest = Ok (p', eth_frame (pad p) dest (mac p) (proto p) msg) /\
    port_ok p' /\ mac p' = mac p /\ pad p' = pad p /\ proto p' = proto p.
Proof.
  intros p msg dest (Hm & Hp & Bp & a & c & Fr & La & Lc) Hd Hl.
  unfold eth_send. rewrite Hd. cbn [Z.eqb Pos.eqb negb].
  destruct (split_at a 6 ltac:(lia)) as (a1 & a2 & -> & L1 & L2).
  assert (F1 : put (put (frame p) 0 dest) 6 (mac p) = (dest ++ mac p ++ proto p) ++ c).
  { rewrite Fr, <- !app_assoc. change (a1 ++ a2 ++ proto p ++ c) with ([] ++ a1 ++ (a2 ++ proto p ++ c)).
    rewrite put_app by (try reflexivity; lia). cbn [app]. rewrite put_app by lia. reflexivity. }
  rewrite F1. set (l := zlen msg) in *. pose proof (zlen_nonneg _ msg) as L0. fold l in L0.
  assert (LH : zlen (dest ++ mac p ++ proto p) = 14) by (rewrite !zlen_app; lia).
  (* the header, after the optional length field *)
  assert (X : exists c', zlen c' = 1514 - plstart p /\
    (if pad p then if 1498 <? l then Err EValue else Ok (put ((dest ++ mac p ++ proto p) ++ c) 14 [Z.land l 255; Z.shiftr l 8])
     else if 1500 <? l then Err EValue else Ok ((dest ++ mac p ++ proto p) ++ c)) =
    Ok ((dest ++ mac p ++ proto p ++ (if pad p then le_enc 2 l else [])) ++ c')).
  { unfold plstart. destruct (pad p).
    - destruct (Z.ltb_spec 1498 l); [lia|]. destruct (split_at c 2 ltac:(lia)) as (c1 & c2 & -> & M1 & M2).
      exists c2. split; [lia|]. rewrite le2 by lia.
      rewrite put_app by (auto; rewrite ?zlen_le_enc; lia). rewrite <- !app_assoc. reflexivity.
    - destruct (Z.ltb_spec 1500 l); [lia|]. exists c. split; [lia|]. rewrite app_nil_r. reflexivity. }
  destruct X as (c' & Lc' & ->). cbn [bind].
  set (hdr := dest ++ mac p ++ proto p ++ (if pad p then le_enc 2 l else [])).
  assert (LHD : zlen hdr = plstart p).
  { unfold hdr, plstart. rewrite !zlen_app. destruct (pad p); rewrite ?zlen_le_enc, ?zlen_nil; lia. }
  assert (PS : 14 <= plstart p <= 16) by (unfold plstart; destruct (pad p); lia).
  assert (LL : l <= zlen c') by (rewrite Lc'; unfold plstart in *; destruct (pad p); lia).
  destruct (split_at c' l ltac:(lia)) as (m0 & c2 & -> & K1 & K2). rewrite zlen_app in *.
  rewrite (put_app hdr m0 c2 (plstart p) msg) by (auto; lia).
  assert (FH : forall tl, hdr ++ tl = (dest ++ mac p) ++ proto p ++ ((if pad p then le_enc 2 l else []) ++ tl)).
  { intros. unfold hdr. rewrite <- !app_assoc. reflexivity. }
  assert (EF : eth_frame (pad p) dest (mac p) (proto p) msg = hdr ++ msg ++ pad_bytes (60 - plstart p - l)).
  { unfold eth_frame. cbv zeta. fold l. fold hdr. rewrite LHD. reflexivity. }
  rewrite EF. destruct (Z.ltb_spec (l + plstart p) 60) as [S|S].
  - rewrite fill_slice by lia.
    destruct (split_at c2 (60 - (l + plstart p)) ltac:(lia)) as (d & e & -> & D1 & D2).
    rewrite app_assoc. rewrite put_app; [|rewrite zlen_app; lia|rewrite zlen_pad; lia].
    rewrite Z.max_r by lia. eexists. split; [f_equal; f_equal|].
    { replace (60 - plstart p - l) with (60 - (l + plstart p)) by lia.
      rewrite !app_assoc. apply upto_app_exact. rewrite !zlen_app, zlen_pad. lia. }
    split; [|auto]. unfold port_ok. cbn [mac proto frame]. repeat split; auto.
    exists (dest ++ mac p), ((if pad p then le_enc 2 l else []) ++ msg ++ pad_bytes (60 - (l + plstart p)) ++ e).
    rewrite <- app_assoc, FH. split; auto. split; [rewrite zlen_app; lia|]. rewrite !zlen_app, zlen_pad in *.
    unfold plstart in *. destruct (pad p); rewrite ?zlen_le_enc, ?zlen_nil in *; lia.
  - rewrite Z.max_l by lia. eexists. split; [f_equal; f_equal|].
    { rewrite pad_bytes_neg, app_nil_r, app_assoc by lia. apply upto_app_exact. rewrite zlen_app. lia. }
    split; [|auto]. unfold port_ok. cbn [mac proto frame]. repeat split; auto.
    exists (dest ++ mac p), ((if pad p then le_enc 2 l else []) ++ msg ++ c2).
    rewrite FH. split; auto. split; [rewrite zlen_app; lia|]. rewrite !zlen_app in *.
    unfold plstart in *. destruct (pad p); rewrite ?zlen_le_enc, ?zlen_nil in *; lia.
Qed.
Print Assumptions eth_sends_frame.
Theorem eth_too_long : forall p msg dest, zlen dest = 6 -> (if pad p then 1498 else 1500) < zlen msg ->
  eth_send p msg dest = Err EValue.
Proof.
  intros p msg dest Hd Hl. unfold eth_send. rewrite Hd. cbn [Z.eqb Pos.eqb negb].
  destruct (pad p); [destruct (Z.ltb_spec 1498 (zlen msg))|destruct (Z.ltb_spec 1500 (zlen msg))]; try lia; reflexivity.
Qed.
(** A new port satisfies the invariant; a port for an 802.3 SAP cannot be
    created at all. *)
Theorem eth_port_ok : forall m pr sap pd own, zlen m = 6 -> zlen pr = 2 -> bytes_ok pr ->
  exists p, eth_port m (Some pr) sap pd own = Ok p /\ port_ok p.
Proof.
  intros m pr sap pd own Hm Hp Bp. eexists. split; [reflexivity|]. unfold port_ok. cbn [mac proto frame].
  repeat split; auto. exists (repeat 0 12), (repeat 0 1500). split; [|split; reflexivity].
  change (repeat 0 1514) with (repeat 0 12 ++ [0; 0] ++ repeat 0 1500). apply put_app; [reflexivity|]. rewrite Hp. reflexivity.
Qed.
Theorem eth_sap_refuted : forall m sap pd own, eth_port m None (Some sap) pd own = Err EAssert.
Proof. reflexivity. Qed.

(** *** Reception *)
Definition individual (m : list Z) : Prop := Z.even (nth 0 m 0) = true.
Definition ethertype (pr : list Z) : Prop := exists b0 b1, pr = [b0; b1] /\ 1500 < b0 * 256 + b1 /\ byte_ok b0 /\ byte_ok b1.
Definition listens (p : port) (dest : list Z) : Prop := dest = mac p \/ promisc p = true \/ In dest (multicast p).

Lemma ethertype_not_len : forall pr, ethertype pr -> bytes_le pr [5; 220] = false.
Proof.
  intros pr (b0 & b1 & -> & H & B0 & B1). unfold byte_ok in *. cbn [bytes_le].
  destruct (Z.ltb_spec b0 5); [lia|]. destruct (Z.ltb_spec 5 b0); auto.
  destruct (Z.ltb_spec b1 220); [lia|]. destruct (Z.ltb_spec 220 b1); auto. lia.
Qed.
Lemma accepts_listens : forall p d, accepts p d = true <-> listens p d.
Proof.
  intros p d. unfold accepts, listens. rewrite !orb_true_iff, leqb_eq, existsb_exists. split.
  - intros [[H|H]|(x & H & E)]; auto. apply leqb_eq in E. subst. auto.
  - intros [H|[H|H]]; auto. right. exists d. split; auto. apply leqb_eq. auto.
Qed.
Lemma even_land1 : forall b, Z.even b = true -> Z.land b 1 = 0.
Proof.
  intros b H. change 1 with (Z.ones 1). rewrite Z.land_ones by lia. change (2 ^ 1) with 2.
  apply Z.even_spec in H as [k ->]. lia.
Qed.
(** Generic view of reception of a frame with a 14 byte header. *)
Lemma eth_receive_hdr : forall ports plen dest src pr body, zlen dest = 6 -> zlen src = 6 -> ethertype pr ->
  eth_receive ports plen (dest ++ src ++ pr ++ body) =
  match dget pkey_eqb ports (KProto pr) with
  | None => Ok None
  | Some p =>
      if negb (Z.land (nth 0 src 0) 1 =? 0) then Ok None
      else if accepts p dest then
        if pad p then
          let* b14 := at_ body 0 in let* b15 := at_ body 1 in
          let plen2 := b14 + Z.shiftl b15 8 in
          if plen <? plen2 + 16 then Ok None
          else Ok (Some {| r_owner := owner p; r_src := src; r_packet := upto plen2 (from 2 body); r_pdu := dest ++ src ++ pr ++ body |})
        else Ok (Some {| r_owner := owner p; r_src := src; r_packet := upto (plen - 14) body; r_pdu := dest ++ src ++ pr ++ body |})
      else Ok None
  end.
Proof.
  intros ports plen dest src pr body Hd Hs E. pose proof E as (b0 & b1 & Epr & _).
  unfold eth_receive. set (pk := dest ++ src ++ pr ++ body).
  assert (NE : pk <> []) by (unfold pk; destruct dest; [discriminate Hd|discriminate]).
  assert (F6 : from 6 pk = src ++ pr ++ body) by (unfold pk; apply from_app_exact; auto).
  assert (F12 : from 12 pk = pr ++ body).
  { change 12 with (6 + 6). rewrite from_from by lia. rewrite F6. apply from_app_exact. auto. }
  assert (Lpr : 2 = zlen pr) by (rewrite Epr; reflexivity).
  assert (F14 : from 14 pk = body).
  { change 14 with (12 + 2). rewrite from_from by lia. rewrite F12. apply from_app_exact. auto. }
  assert (U : upto 2 (from 12 pk) = pr) by (rewrite F12; apply upto_app_exact; auto).
  assert (AT : forall i, 0 <= i -> at_ pk (14 + i) = at_ body i).
  { intros i Hi. unfold at_. rewrite <- F14. unfold from. rewrite Z2Nat.inj_add by lia.
    generalize (Z.to_nat 14), (Z.to_nat i). generalize pk. clear. intros pk n m. revert pk.
    induction n as [|n IH]; intros pk; auto. destruct pk; cbn [Nat.add nth_error skipn]; [destruct m; reflexivity|apply IH]. }
  assert (D : upto 6 pk = dest) by (apply upto_app_exact; auto).
  assert (S : upto 6 (from 6 pk) = src) by (rewrite F6; apply upto_app_exact; auto).
  destruct pk as [|x pk'] eqn:PK; [contradiction|]. rewrite <- PK in *. clear PK x pk'.
  rewrite U, (ethertype_not_len pr E). destruct (dget pkey_eqb ports (KProto pr)) as [p|]; cbn [bind]; [|reflexivity].
  rewrite D, S, Hs. cbn [Z.eqb Pos.eqb negb]. rewrite F14.
  replace (at_ pk 14) with (at_ body 0) by (symmetry; apply (AT 0); lia).
  replace (at_ pk 15) with (at_ body 1) by (symmetry; apply (AT 1); lia).
  replace (from 16 pk) with (from 2 body); [reflexivity|].
  rewrite <- F14. change 16 with (14 + 2). rewrite from_from by lia. reflexivity.
Qed.

(** C42: padded mode.  A message sent by one port is delivered unchanged to a
    listening port with the same protocol type. *)
Theorem eth_round_trip_pad : forall p msg dest p' f ports q, port_ok p -> pad p = true ->
  individual (mac p) -> ethertype (proto p) -> zlen dest = 6 ->
  eth_send p msg dest = Ok (p', f) ->
  dget pkey_eqb ports (KProto (proto p)) = Some q -> pad q = true -> listens q dest ->
  eth_receive ports (zlen f) f = Ok (Some {| r_owner := owner q; r_src := mac p; r_packet := msg; r_pdu := f |}).
Proof.
  intros p msg dest p' f ports q OK P I E Hd S G PQ L.
  assert (Hl : zlen msg <= (if pad p then 1498 else 1500)).
  { destruct (Z.leb_spec (zlen msg) (if pad p then 1498 else 1500)); auto. rewrite eth_too_long in S by lia. discriminate. }
  destruct (eth_sends_frame p msg dest OK Hd Hl) as (p2 & S2 & _). rewrite S in S2. injection S2 as <- ->.
  rewrite P in *. destruct OK as (Hm & _). unfold eth_frame. cbv zeta.
  set (hl := zlen (dest ++ mac p ++ proto p ++ le_enc 2 (zlen msg))).
  set (pb := pad_bytes (60 - hl - zlen msg)).
  replace ((dest ++ mac p ++ proto p ++ le_enc 2 (zlen msg)) ++ msg ++ pb) with
    (dest ++ mac p ++ proto p ++ (le_enc 2 (zlen msg) ++ msg ++ pb)) by (rewrite <- !app_assoc; reflexivity).
  rewrite eth_receive_hdr by auto. rewrite G, PQ. rewrite (proj2 (accepts_listens q dest) L).
  unfold individual in I. rewrite even_land1 by auto. cbn [Z.eqb negb].
  pose proof (zlen_nonneg _ msg) as L0.
  assert (A0 : at_ (le_enc 2 (zlen msg) ++ msg ++ pb) 0 = Ok (zlen msg mod 256)) by reflexivity.
  assert (A1 : at_ (le_enc 2 (zlen msg) ++ msg ++ pb) 1 = Ok ((zlen msg / 256) mod 256)) by reflexivity.
  rewrite A0, A1. cbn [bind]. rewrite Z.shiftl_mul_pow2 by lia. change (2 ^ 8) with 256.
  replace (zlen msg mod 256 + (zlen msg / 256) mod 256 * 256) with (zlen msg) by lia.
  destruct E as (b0 & b1 & E & _). destruct (Z.ltb_spec (zlen (dest ++ mac p ++ proto p ++ le_enc 2 (zlen msg) ++ msg ++ pb)) (zlen msg + 16)) as [B|B].
  { exfalso. rewrite !zlen_app, zlen_le_enc, E in B. pose proof (zlen_nonneg _ pb). change (zlen [b0; b1]) with 2 in B. lia. }
  do 3 f_equal. change (from 2 (le_enc 2 (zlen msg) ++ msg ++ pb)) with (msg ++ pb). apply upto_app_exact. auto.
Qed.
Print Assumptions eth_round_trip_pad.

(** Unpadded mode: the payload arrives with fill up to the minimum frame, so
    exactly as sent when it has at least 46 bytes. *)
Theorem eth_round_trip_nopad : forall p msg dest p' f ports q, port_ok p -> pad p = false ->
  individual (mac p) -> ethertype (proto p) -> zlen dest = 6 ->
  eth_send p msg dest = Ok (p', f) ->
  dget pkey_eqb ports (KProto (proto p)) = Some q -> pad q = false -> listens q dest ->
  eth_receive ports (zlen f) f = Ok (Some {| r_owner := owner q; r_src := mac p;
                                             r_packet := msg ++ pad_bytes (46 - zlen msg); r_pdu := f |}) /\
  (46 <= zlen msg -> msg ++ pad_bytes (46 - zlen msg) = msg).
Proof.
  intros p msg dest p' f ports q OK P I E Hd S G PQ L. split.
  2: { intros. rewrite pad_bytes_neg, app_nil_r by lia. reflexivity. }
  assert (Hl : zlen msg <= (if pad p then 1498 else 1500)).
  { destruct (Z.leb_spec (zlen msg) (if pad p then 1498 else 1500)); auto. rewrite eth_too_long in S by lia. discriminate. }
  destruct (eth_sends_frame p msg dest OK Hd Hl) as (p2 & S2 & _). rewrite S in S2. injection S2 as <- ->.
  rewrite P in *. destruct OK as (Hm & Lp & _). unfold eth_frame. cbv zeta.
  rewrite app_nil_r. replace (zlen (dest ++ mac p ++ proto p)) with 14 by (rewrite !zlen_app; lia).
  replace (60 - 14 - zlen msg) with (46 - zlen msg) by lia. set (pb := pad_bytes (46 - zlen msg)).
  rewrite <- !app_assoc. rewrite eth_receive_hdr by auto. rewrite G, PQ. rewrite (proj2 (accepts_listens q dest) L).
  unfold individual in I. rewrite even_land1 by auto. cbn [Z.eqb negb]. do 3 f_equal.
  rewrite !zlen_app. replace (_ - 14) with (zlen msg + zlen pb) by lia. rewrite <- zlen_app.
  unfold upto, zlen. rewrite Nat2Z.id. apply firstn_all.
Qed.
Print Assumptions eth_round_trip_nopad.

(** Filtering: whatever is received, a payload reaches an owner only through
    the port registered for the frame's protocol type and listening on its
    destination address, and padded payloads have the length announced. *)
Theorem eth_filter : forall ports plen packet r, (forall s, dget pkey_eqb ports (KSap s) = None) ->
  eth_receive ports plen packet = Ok (Some r) ->
  exists q, dget pkey_eqb ports (KProto (firstn 2 (skipn 12 packet))) = Some q /\ r_owner r = owner q /\
    listens q (firstn 6 packet) /\ r_src r = firstn 6 (skipn 6 packet) /\ individual (r_src r) /\ r_pdu r = packet.
Proof.
  intros ports plen packet r NS H. unfold eth_receive in H. destruct packet as [|x packet']; [discriminate|].
  set (packet := x :: packet') in *. change (upto 2 (from 12 packet)) with (firstn 2 (skipn 12 packet)) in H.
  destruct (bytes_le _ _).
  { destruct (at_ packet 14) as [d|]; cbn [bind] in H; [|discriminate]. rewrite NS in H. cbn [bind] in H. discriminate. }
  destruct (dget pkey_eqb ports (KProto (firstn 2 (skipn 12 packet)))) as [q|] eqn:G; cbn [bind] in H; [|discriminate].
  exists q. split; auto.
  change (upto 6 (from 6 packet)) with (firstn 6 (skipn 6 packet)) in H. change (upto 6 packet) with (firstn 6 packet) in H.
  destruct (negb (zlen (firstn 6 (skipn 6 packet)) =? 6)); [discriminate|].
  destruct (Z.eqb_spec (Z.land (nth 0 (firstn 6 (skipn 6 packet)) 0) 1) 0) as [I|]; cbn [negb] in H; [|discriminate].
  destruct (accepts q (firstn 6 packet)) eqn:A; [|discriminate]. apply accepts_listens in A.
  assert (IN : individual (firstn 6 (skipn 6 packet))).
  { unfold individual. revert I. generalize (nth 0 (firstn 6 (skipn 6 packet)) 0). intros b I.
    change 1 with (Z.ones 1) in I. rewrite Z.land_ones in I by lia. change (2 ^ 1) with 2 in I. apply Z.even_spec.
    exists (b / 2). lia. }
  destruct (pad q).
  - destruct (at_ packet 14) as [b14|]; cbn [bind] in H; [|discriminate].
    destruct (at_ packet 15) as [b15|]; cbn [bind] in H; [|discriminate].
    destruct (plen <? _); [discriminate|]. injection H as <-. cbn [r_owner r_src r_pdu]. auto.
  - injection H as <-. cbn [r_owner r_src r_pdu]. auto.
Qed.
Print Assumptions eth_filter.
(** A frame shorter than its header raises IndexError in the receive thread. *)
Theorem eth_runt_refuted : exists ports packet, zlen packet = 15 /\
  eth_receive ports (zlen packet) packet = Err EIndex.
Proof.
  exists [(KProto [96; 3], {| mac := [170; 0; 4; 0; 1; 4]; multicast := []; promisc := false; pad := true;
                              proto := [96; 3]; owner := 1; frame := [] |})],
         ([170; 0; 4; 0; 1; 4] ++ [170; 0; 4; 0; 2; 4] ++ [96; 3] ++ [0]).
  vm_compute. auto.
Qed.
Print Assumptions eth_runt_refuted.
(** Hypotheses met. *)
Example eth_demo :
  let A := [170; 0; 4; 0; 1; 4] in let B := [170; 0; 4; 0; 2; 4] in
  exists p p' f q, eth_port A (Some [96; 3]) None true 7 = Ok p /\ eth_port B (Some [96; 3]) None true 9 = Ok q /\
    individual A /\ ethertype [96; 3] /\ listens q B /\
    eth_send p [1; 2; 3] B = Ok (p', f) /\ zlen f = 60 /\
    eth_receive [(KProto [96; 3], q)] (zlen f) f = Ok (Some {| r_owner := 9; r_src := A; r_packet := [1; 2; 3]; r_pdu := f |}).
Proof.
  do 4 eexists. split; [reflexivity|]. split; [reflexivity|]. split; [reflexivity|].
  split; [exists 96, 3; unfold byte_ok; repeat split; lia|]. split; [left; reflexivity|].
  split; [vm_compute; reflexivity|]. vm_compute. auto.
Qed.

(** *** GRE (C45) *)
Theorem gre_sends_frame : forall p msg, gport_ok p -> zlen msg <= (if pad p then 1498 else 1500) ->
  exists p', gre_send p msg = Ok (p', gre_frame (pad p) (proto p) msg) /\ gport_ok p' /\ pad p' = pad p /\ proto p' = proto p.
Proof.
  intros p msg (Hp & c & Fr & Lc) Hl. unfold gre_send. pose proof (zlen_nonneg _ msg) as L0. unfold gre_frame.
  assert (H4 : zlen ([0; 0] ++ proto p) = 4) by (rewrite zlen_app, Hp; reflexivity).
  rewrite Fr. destruct (pad p).
  - destruct (Z.ltb_spec 1498 (zlen msg)); [lia|]. rewrite le2 by lia.
    destruct (split_at c 2 ltac:(lia)) as (c1 & c2 & -> & M1 & M2).
    destruct (split_at c2 (zlen msg) ltac:(lia)) as (c3 & c4 & -> & M3 & M4).
    rewrite (app_assoc [0; 0]). rewrite put_app by (auto; rewrite zlen_le_enc; lia). rewrite app_assoc.
    rewrite put_app; [|rewrite zlen_app, zlen_le_enc; lia|auto]. cbn [bind]. eexists. split; [f_equal; f_equal|].
    { rewrite <- !app_assoc. rewrite !app_assoc. apply upto_app_exact. rewrite !zlen_app, zlen_le_enc in *. lia. }
    split; [|auto]. split; [auto|]. exists (le_enc 2 (zlen msg) ++ msg ++ c4). cbn [frame]. rewrite <- !app_assoc.
    split; auto. rewrite !zlen_app, zlen_le_enc in *. lia.
  - destruct (Z.ltb_spec 1500 (zlen msg)); [lia|].
    destruct (split_at c (zlen msg) ltac:(lia)) as (c3 & c4 & -> & M3 & M4).
    rewrite (app_assoc [0; 0]). rewrite put_app by auto. cbn [bind]. eexists. split; [f_equal; f_equal|].
    { change (@app Z [] msg) with msg. rewrite !app_assoc. apply upto_app_exact. rewrite !zlen_app in *. lia. }
    split; [|auto]. split; [auto|]. exists (msg ++ c4). cbn [frame]. rewrite <- !app_assoc.
    split; auto. rewrite !zlen_app in *. lia.
Qed.
Print Assumptions gre_sends_frame.
Theorem gre_port_ok : forall pr pd own, zlen pr = 2 -> gport_ok (gre_port pr pd own).
Proof.
  intros pr pd own H. split; auto. exists (repeat 0 1500). cbn [gre_port frame proto]. split; [|reflexivity].
  change (repeat 0 1504) with ([] ++ [0; 0] ++ repeat 0 1502). rewrite put_app by reflexivity.
  change (repeat 0 1502) with ([0; 0] ++ repeat 0 1500). cbn [app].
  apply (put_app [0; 0] [0; 0] (repeat 0 1500) 2 pr); [reflexivity|rewrite H; reflexivity].
Qed.

(** An IPv4 header: version 4, length in words in the low half of the first
    byte. *)
Definition ipv4_header (h : list Z) : Prop := exists n, 5 <= n < 16 /\ zlen h = 4 * n /\ hd_error h = Some (64 + n).
Definition ip_prefix (skip : bool) (h : list Z) : Prop := if skip then ipv4_header h else h = [].
Lemma from_app_more : forall (a b : list Z) n, 0 <= n -> from (zlen a + n) (a ++ b) = from n b.
Proof. intros a b n H. rewrite from_from by (try apply zlen_nonneg; auto). rewrite from_app_exact; auto. Qed.
Lemma at_app_more : forall (a b : list Z) n, 0 <= n -> at_ (a ++ b) (zlen a + n) = at_ b n.
Proof.
  intros a b n H. unfold at_. rewrite Z2Nat.inj_add by (try apply zlen_nonneg; auto). unfold zlen. rewrite Nat2Z.id.
  rewrite nth_error_app2 by lia. replace (length a + Z.to_nat n - length a)%nat with (Z.to_nat n) by lia. reflexivity.
Qed.
Lemma upto_all : forall (A : Type) (l : list A) n, zlen l <= n -> upto n l = l.
Proof. intros. unfold upto. apply firstn_all2. unfold zlen in H. lia. Qed.

(** Generic view of reception of a frame that fits the receive buffer. *)
Lemma gre_receive_hdr : forall ports skip h pr body, ip_prefix skip h -> zlen pr = 2 ->
  let d := h ++ [0; 0] ++ pr ++ body in zlen d <= 1504 -> (4 < zlen d) ->
  gre_receive ports skip true d =
  match dget pkey_eqb ports (KProto pr) with
  | None => Ok None
  | Some p =>
      if pad p then
        let* b4 := at_ body 0 in let* b5 := at_ body 1 in
        let plen2 := b4 + Z.shiftl b5 8 in
        if zlen body <? plen2 then Ok None
        else Ok (Some {| r_owner := owner p; r_src := []; r_packet := upto plen2 (from 2 body); r_pdu := [] |})
      else Ok (Some {| r_owner := owner p; r_src := []; r_packet := body; r_pdu := [] |})
  end.
Proof.
  intros ports skip h pr body IP Lp d Ld L4. unfold gre_receive. rewrite upto_all by lia.
  destruct (Z.leb_spec (zlen d) 4); [lia|]. cbn [negb].
  assert (PO : (if skip then let* b0 := at_ d 0 in if b0 / 16 =? 4 then Ok (Some (4 * (b0 mod 16))) else Ok None else Ok (Some 0))
               = Ok (Some (zlen h))).
  { destruct skip; cbn [ip_prefix] in IP.
    - destruct IP as (n & Hn & Lh & Hh). destruct h as [|x h]; [discriminate|]. cbn in Hh. injection Hh as ->.
      change (at_ d 0) with (@Ok Z (64 + n)). cbn [bind].
      replace ((64 + n) / 16) with 4 by lia. cbn [Z.eqb Pos.eqb]. do 2 f_equal. lia.
    - subst h. reflexivity. }
  rewrite PO. cbn [bind]. unfold d.
  assert (H0 : from (zlen h) (h ++ [0; 0] ++ pr ++ body) = [0; 0] ++ pr ++ body) by (apply from_app_exact; auto).
  rewrite H0. change (upto 2 ([0; 0] ++ pr ++ body)) with [0; 0]. cbn [leqb Z.eqb andb negb].
  rewrite from_app_more by lia. change (from 2 ([0; 0] ++ pr ++ body)) with (pr ++ body).
  rewrite upto_app_exact by auto. destruct (dget pkey_eqb ports (KProto pr)) as [p|]; auto.
  assert (E4 : forall n, 0 <= n -> from (zlen h + (4 + n)) (h ++ [0; 0] ++ pr ++ body) = from n body).
  { intros n Hn. rewrite from_app_more by lia. rewrite app_assoc.
    replace (4 + n) with (zlen ([0; 0] ++ pr) + n) by (rewrite zlen_app, Lp; reflexivity). apply from_app_more. auto. }
  assert (A4 : forall n, 0 <= n -> at_ (h ++ [0; 0] ++ pr ++ body) (zlen h + (4 + n)) = at_ body n).
  { intros n Hn. rewrite at_app_more by lia. rewrite app_assoc.
    replace (4 + n) with (zlen ([0; 0] ++ pr) + n) by (rewrite zlen_app, Lp; reflexivity). apply at_app_more. auto. }
  pose proof (A4 0 ltac:(lia)) as A40. pose proof (A4 1 ltac:(lia)) as A41. pose proof (E4 0 ltac:(lia)) as E40. pose proof (E4 2 ltac:(lia)) as E42.
  change (4 + 0) with 4 in *. change (4 + 1) with 5 in *. change (4 + 2) with 6 in *.
  rewrite A40, A41, E40, E42. change (from 0 body) with body.
  replace (zlen (h ++ [0; 0] ++ pr ++ body) - (zlen h + 4)) with (zlen body); [reflexivity|].
  rewrite !zlen_app, Lp. change (zlen [0; 0]) with 2. lia.
Qed.
(** C45: a payload sent over GRE is received unchanged, provided it fits the
    receiver's buffer of 1504 bytes with the IP header. *)
Theorem gre_round_trip : forall p msg p' f ports q skip h, gport_ok p -> gre_send p msg = Ok (p', f) ->
  dget pkey_eqb ports (KProto (proto p)) = Some q -> pad q = pad p -> ip_prefix skip h ->
  zlen (h ++ f) <= 1504 -> (skip = false -> pad p = false -> msg <> []) ->
  gre_receive ports skip true (h ++ f) = Ok (Some {| r_owner := owner q; r_src := []; r_packet := msg; r_pdu := [] |}).
Proof.
  intros p msg p' f ports q skip h OK S G PQ IP L NE.
  assert (Hl : zlen msg <= (if pad p then 1498 else 1500)).
  { destruct (Z.leb_spec (zlen msg) (if pad p then 1498 else 1500)); auto. exfalso. unfold gre_send in S.
    destruct (pad p); [destruct (Z.ltb_spec 1498 (zlen msg))|destruct (Z.ltb_spec 1500 (zlen msg))]; try lia; discriminate. }
  destruct (gre_sends_frame p msg OK Hl) as (p2 & S2 & _). rewrite S in S2. injection S2 as <- ->.
  destruct OK as (Lp & _). pose proof (zlen_nonneg _ msg) as L0.
  assert (L4 : 4 < zlen (h ++ gre_frame (pad p) (proto p) msg)).
  { unfold gre_frame. rewrite !zlen_app, Lp. change (zlen [0; 0]) with 2. destruct (pad p).
    - rewrite zlen_le_enc. pose proof (zlen_nonneg _ h). lia.
    - change (zlen (@nil Z)) with 0. destruct skip; cbn [ip_prefix] in IP.
      + destruct IP as (n & ? & ? & _). lia.
      + destruct msg; [exfalso; apply NE; auto|]. rewrite zlen_cons in *. pose proof (zlen_nonneg _ h). pose proof (zlen_nonneg _ msg). lia. }
  unfold gre_frame in *. rewrite gre_receive_hdr by auto. rewrite G, PQ. destruct (pad p).
  - assert (A0 : at_ (le_enc 2 (zlen msg) ++ msg) 0 = Ok (zlen msg mod 256)) by reflexivity.
    assert (A1 : at_ (le_enc 2 (zlen msg) ++ msg) 1 = Ok ((zlen msg / 256) mod 256)) by reflexivity.
    rewrite A0, A1. cbn [bind]. rewrite Z.shiftl_mul_pow2 by lia. change (2 ^ 8) with 256.
    replace (zlen msg mod 256 + (zlen msg / 256) mod 256 * 256) with (zlen msg) by lia.
    rewrite zlen_app, zlen_le_enc. destruct (Z.ltb_spec (Z.of_nat 2 + zlen msg) (zlen msg)); [lia|].
    change (from 2 (le_enc 2 (zlen msg) ++ msg)) with msg. rewrite upto_all by lia. reflexivity.
  - reflexivity.
Qed.
Print Assumptions gre_round_trip.
(** A truncated padded frame is delivered cut short when one or two bytes are
    missing: the check forgets the length field itself.  With three or more
    bytes missing it is dropped. *)
Theorem gre_truncated_refuted : exists ports p p' f r, gport_ok p /\ gre_send p [1; 2; 3] = Ok (p', f) /\
  dget pkey_eqb ports (KProto (proto p)) = Some p /\
  gre_receive ports false true (firstn 8 f) = Ok (Some r) /\ r_packet r = [1; 2].
Proof.
  exists [(KProto [96; 3], gre_port [96; 3] true 1)], (gre_port [96; 3] true 1). do 3 eexists.
  split; [apply gre_port_ok; reflexivity|]. vm_compute. repeat split; reflexivity.
Qed.
Print Assumptions gre_truncated_refuted.
Theorem gre_truncated_dropped : forall p msg ports q skip h body, gport_ok p -> pad p = true ->
  dget pkey_eqb ports (KProto (proto p)) = Some q -> pad q = true -> ip_prefix skip h ->
  zlen msg < 65536 -> (exists tl, le_enc 2 (zlen msg) ++ msg = body ++ tl /\ 3 <= zlen tl) -> 2 <= zlen body ->
  zlen (h ++ [0; 0] ++ proto p ++ body) <= 1504 ->
  gre_receive ports skip true (h ++ [0; 0] ++ proto p ++ body) = Ok None.
Proof.
  intros p msg ports q skip h body (Lp & _) P G PQ IP Lm (tl & E & Lt) Lb L. pose proof (zlen_nonneg _ h).
  rewrite gre_receive_hdr; auto.
  2: { rewrite !zlen_app, Lp. change (zlen [0; 0]) with 2. lia. }
  rewrite G, PQ. destruct body as [|x [|y body]]; [exfalso; apply Lb; reflexivity|exfalso; apply Lb; reflexivity|].
  cbn [le_enc app] in E. injection E as Ex Ey Em. change (at_ (x :: y :: body) 0) with (@Ok Z x).
  change (at_ (x :: y :: body) 1) with (@Ok Z y). cbn [bind]. subst x y. pose proof (zlen_nonneg _ msg).
  rewrite Z.shiftl_mul_pow2 by lia. change (2 ^ 8) with 256.
  replace (zlen msg mod 256 + (zlen msg / 256) mod 256 * 256) with (zlen msg) by lia.
  rewrite !zlen_cons. assert (zlen msg = zlen body + zlen tl) by (rewrite Em; apply zlen_app).
  destruct (Z.ltb_spec (1 + (1 + zlen body)) (zlen msg)); [reflexivity|lia].
Qed.
Print Assumptions gre_truncated_dropped.
Example gre_demo : exists p', gre_send (gre_port [96; 3] true 1) [1; 2; 3] = Ok (p', [0; 0; 96; 3; 3; 0; 1; 2; 3]) /\
  gre_receive [(KProto [96; 3], gre_port [96; 3] true 5)] true true (69 :: repeat 0 19 ++ [0; 0; 96; 3; 3; 0; 1; 2; 3]) =
  Ok (Some {| r_owner := 5; r_src := []; r_packet := [1; 2; 3]; r_pdu := [] |}) /\ ipv4_header (69 :: repeat 0 19).
Proof. eexists. split; [vm_compute; reflexivity|]. split; [vm_compute; reflexivity|]. exists 5. vm_compute. repeat split; discriminate. Qed.
