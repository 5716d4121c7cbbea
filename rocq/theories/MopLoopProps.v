(** C48: loop messages visit the requested stations and come back. *)
From Verif Require Import Base MopLoopModel.

Definition mac_ok (d : list Z) : Prop := zlen d = 6 /\ bytes_ok d.
Definition unicast (d : list Z) : Prop := exists b t, d = b :: t /\ b mod 2 = 0.
Lemma ismulti_uni : forall d, unicast d -> ismulti d = false.
Proof. intros d (b & t & -> & H). cbn [ismulti]. rewrite Zodd_mod. destruct (b mod 2 =? 1) eqn:E; unfold Zeq_bool; [lia|]. rewrite H. reflexivity. Qed.

(** The message on its way: k of its hops done. *)
Definition fwds (l : list (list Z)) : list Z := flat_map (fun d => [2; 0] ++ d) l.
Lemma fold_fwds : forall l ret, fold_left (fun ret dest => enc_fwd dest ret) (rev l) ret = fwds l ++ ret.
Proof.
  induction l as [|d l IH]; intros ret; [reflexivity|]. cbn [rev]. rewrite fold_left_app, IH. cbn [fold_left fwds flat_map].
  unfold enc_fwd. change (le_enc 2 2) with [2; 0]. rewrite <- !app_assoc. reflexivity.
Qed.
Lemma zlen_fwds : forall l, Forall (fun d => zlen d = 6) l -> zlen (fwds l) = 8 * zlen l.
Proof.
  induction 1 as [|d l H F IH]; [reflexivity|]. cbn [fwds flat_map]. rewrite !zlen_app, !zlen_cons, zlen_nil. unfold fwds in IH. lia.
Qed.
Definition at_hop (skip : Z) (pre : list Z) (rest : list (list Z)) (r : Z) (p : list Z) : list Z :=
  le_enc 2 skip ++ pre ++ fwds rest ++ [1; 0] ++ le_enc 2 r ++ p.
Lemma le2 : forall v, 0 <= v < 65536 -> le_dec (le_enc 2 v) = v.
Proof. intros v H. cbn [le_enc le_dec]. lia. Qed.
Lemma zlen_le2 : forall v, zlen (le_enc 2 v) = 2.
Proof. reflexivity. Qed.
Lemma from_plus : forall A (a b : list A) n, 0 <= n -> from (zlen a + n) (a ++ b) = from n b.
Proof. intros A a b n H. unfold from, zlen. rewrite skipn_app. rewrite skipn_all2 by lia. cbn [app]. f_equal. lia. Qed.
Lemma head_at : forall pre rest r p, 0 <= zlen pre < 65536 ->
  upto 2 (at_hop (zlen pre) pre rest r p) = le_enc 2 (zlen pre) /\ from (zlen pre + 2) (at_hop (zlen pre) pre rest r p) = fwds rest ++ [1; 0] ++ le_enc 2 r ++ p /\
  from 2 (at_hop (zlen pre) pre rest r p) = pre ++ fwds rest ++ [1; 0] ++ le_enc 2 r ++ p /\
  zlen (at_hop (zlen pre) pre rest r p) = 6 + zlen pre + zlen (fwds rest) + zlen p.
Proof.
  intros pre rest r p H. unfold at_hop. split; [|split; [|split]].
  - apply upto_app_exact. reflexivity.
  - replace (zlen pre + 2) with (zlen (le_enc 2 (zlen pre)) + zlen pre) by (rewrite zlen_le2; lia). rewrite from_plus by lia. apply from_app_exact. reflexivity.
  - apply from_app_exact. reflexivity.
  - rewrite !zlen_app, !zlen_le2, !zlen_cons, zlen_nil. lia.
Qed.
Lemma handle_last : forall pre r p, zlen pre < 65536 -> Z.odd (zlen pre) = false -> 0 <= r < 65536 -> loop_handle (at_hop (zlen pre) pre [] r p) = Ok (LDeliver r p).
Proof.
  intros pre r p H O R. assert (N := zlen_nonneg _ pre). assert (NP := zlen_nonneg _ p). destruct (head_at pre [] r p) as (A & B & C & D); [lia|]. cbn [fwds flat_map] in B, D. rewrite zlen_nil in D.
  unfold loop_handle, require. rewrite A, le2 by lia. rewrite B, C, D. replace (_ <? 2) with false by lia. cbn [bind]. rewrite O. replace (_ <? zlen pre) with false by lia. cbn [orb].
  change (le_dec (upto 2 ([] ++ [1; 0] ++ le_enc 2 r ++ p))) with 1. cbn [Z.eqb Pos.eqb].
  change (from 2 ([] ++ [1; 0] ++ le_enc 2 r ++ p)) with (le_enc 2 r ++ p). rewrite zlen_app, zlen_le2. replace (_ <? 2) with false by lia. cbn [bind].
  rewrite upto_app_exact, from_app_exact by reflexivity. rewrite le2 by assumption. reflexivity.
Qed.
Lemma handle_fwd : forall pre d rest r p, zlen pre < 65528 -> Z.odd (zlen pre) = false -> zlen d = 6 -> unicast d ->
  loop_handle (at_hop (zlen pre) pre (d :: rest) r p) = Ok (LSend (at_hop (zlen (pre ++ [2; 0] ++ d)) (pre ++ [2; 0] ++ d) rest r p) d).
Proof.
  intros pre d rest r p H O L U. assert (N := zlen_nonneg _ pre). assert (NP := zlen_nonneg _ p). assert (NR := zlen_nonneg _ (fwds rest)). destruct (head_at pre (d :: rest) r p) as (A & B & C & D); [lia|].
  cbn [fwds flat_map] in B, C, D. fold (fwds rest) in *. rewrite !zlen_app, !zlen_cons, zlen_nil in D.
  unfold loop_handle, require. rewrite A, le2 by lia. rewrite B, C, D. replace (_ <? 2) with false by lia. cbn [bind]. rewrite O. replace (_ <? zlen pre) with false by lia. cbn [orb].
  set (tl := [1; 0] ++ le_enc 2 r ++ p). change ((([2; 0] ++ d) ++ fwds rest) ++ tl) with (2 :: 0 :: ((d ++ fwds rest) ++ tl)).
  change (le_dec (upto 2 (2 :: 0 :: ((d ++ fwds rest) ++ tl)))) with 2. cbn [Z.eqb Pos.eqb].
  change (from 2 (2 :: 0 :: ((d ++ fwds rest) ++ tl))) with ((d ++ fwds rest) ++ tl). rewrite <- app_assoc.
  assert (LT := zlen_nonneg _ tl). rewrite !zlen_app. replace (_ <? 6) with false by lia. cbn [bind]. rewrite upto_app_exact by lia.
  rewrite (ismulti_uni d U). unfold enc_skip, to_bytes. change (256 ^ Z.of_nat 2) with 65536.
  replace (_ && _) with true by lia. cbn [bind]. unfold at_hop. replace (zlen pre + (zlen [2; 0] + zlen d)) with (zlen pre + 8) by (rewrite !zlen_cons, zlen_nil; lia).
  f_equal. f_equal. unfold tl. rewrite <- !app_assoc. reflexivity.
Qed.
Lemma journey_hops : forall rest pads at_ pre r p, zlen pads = zlen rest + 1 -> Forall (fun d => zlen d = 6 /\ unicast d) rest -> 0 <= r < 65536 ->
  Z.odd (zlen pre) = false -> zlen pre + 8 * zlen rest < 65536 ->
  journey pads at_ (at_hop (zlen pre) pre rest r p) = (at_ :: rest, Some (r, p ++ concat pads)).
Proof.
  induction rest as [|d rest IH]; intros pads at_ pre r p L F R O B; (destruct pads as [|pad pads]; [unfold zlen in L; cbn [length] in L; lia|]); cbn [journey].
  - rewrite zlen_nil, zlen_cons in *. assert (N := zlen_nonneg _ pads). destruct pads; [|rewrite zlen_cons in L; pose proof (zlen_nonneg _ pads); lia].
    replace (at_hop (zlen pre) pre [] r p ++ pad) with (at_hop (zlen pre) pre [] r (p ++ pad)) by (unfold at_hop; rewrite <- !app_assoc; reflexivity).
    rewrite handle_last by (assumption || lia). cbn [concat]. rewrite app_nil_r. reflexivity.
  - rewrite !zlen_cons in *. inversion F as [|? ? [F1 F2] F3]; subst. assert (N := zlen_nonneg _ rest).
    replace (at_hop (zlen pre) pre (d :: rest) r p ++ pad) with (at_hop (zlen pre) pre (d :: rest) r (p ++ pad)) by (unfold at_hop; rewrite <- !app_assoc; reflexivity).
    rewrite handle_fwd by (assumption || lia).
    assert (ZP : zlen (pre ++ [2; 0] ++ d) = zlen pre + 8) by (rewrite !zlen_app, !zlen_cons, zlen_nil; lia).
    rewrite IH; [|lia|exact F3|exact R| |lia].
    + cbn [concat]. rewrite app_assoc. reflexivity.
    + rewrite ZP. rewrite <- O. rewrite !Zodd_mod. f_equal. lia.
Qed.

(** A loop request to up to three stations, none of them a group address, sends
    to the first one a message that visits exactly these stations in order and
    then the originator, whatever padding the links append; the originator
    hands on the receipt and the data, followed by that padding.  [first] need
    not be named in the request: a request without addresses is sent to the
    loop assistance group and visits whichever station [s] takes it up. *)
Theorem loop_returns : forall own dests r data pads,
  mac_ok own -> unicast own -> Forall mac_ok dests -> Forall unicast dests -> 0 <= r < 65536 ->
  14 + 8 * (zlen dests - 1) + zlen data <= 1500 -> 1 <= zlen dests <= 3 -> zlen pads = zlen dests + 1 ->
  exists msg, loop_start own dests r data = Ok (Go (hd [] dests) msg) /\
  journey pads (hd [] dests) msg = (dests ++ [own], Some (r, data ++ concat pads)).
Proof.
  intros own dests r data pads [OL _] OU DM DU R LEN ND NP.
  destruct dests as [|first dl]; [rewrite zlen_nil in ND; lia|]. cbn [hd]. rewrite zlen_cons in *.
  inversion DM as [|? ? D1 D2]; subst. inversion DU as [|? ? U1 U2]; subst. assert (N := zlen_nonneg _ dl). assert (NDa := zlen_nonneg _ data).
  assert (UN : existsb ismulti (first :: dl) = false).
  { apply not_true_is_false. intros F. apply existsb_exists in F. destruct F as (d & IN & F). rewrite Forall_forall in DU. rewrite (ismulti_uni d (DU d IN)) in F. discriminate. }
  set (msg := at_hop (zlen (@nil Z)) [] (dl ++ [own]) r data).
  assert (F6 : Forall (fun d => zlen d = 6 /\ unicast d) (dl ++ [own])).
  { apply Forall_app. split; [|repeat constructor; assumption]. rewrite Forall_forall in *. intros d IN. split; [apply (D2 d IN)|apply (U2 d IN)]. }
  exists msg. split.
  - unfold loop_start. cbn zeta. rewrite UN, andb_false_r. rewrite zlen_cons. replace (3 <? _) with false by lia. cbn [app].
    assert (B : buildloop r (dl ++ [own]) data = Ok msg).
    { unfold buildloop, enc_reply, enc_skip, to_bytes. change (256 ^ Z.of_nat 2) with 65536. replace (_ && _) with true by lia. cbn [bind].
      replace ((0 <=? 0) && (0 <? 65536)) with true by reflexivity. cbn [bind]. rewrite fold_fwds. reflexivity. }
    rewrite B. cbn [bind]. assert (Z0 : zlen (@nil Z) = 0) by reflexivity. destruct (head_at [] (dl ++ [own]) r data) as (_ & _ & _ & D); [rewrite Z0; lia|]. unfold msg. rewrite D.
    rewrite zlen_fwds by (eapply Forall_impl; [|exact F6]; intros a [X _]; exact X). rewrite zlen_app, zlen_cons, !zlen_nil. replace (1500 <? _) with false by lia. reflexivity.
  - unfold msg. rewrite journey_hops; [reflexivity| |exact F6|exact R|reflexivity|]; rewrite zlen_app, zlen_cons, !zlen_nil; lia.
Qed.
Theorem loop_assist_returns : forall own s r data pads, mac_ok own -> unicast own -> 0 <= r < 65536 -> 14 + zlen data <= 1500 -> zlen pads = 2 ->
  exists msg, loop_start own [] r data = Ok (Go [0xCF; 0; 0; 0; 0; 0] msg) /\ loop_start own [[0xCF; 0; 0; 0; 0; 0]] r data = Ok (Go [0xCF; 0; 0; 0; 0; 0] msg) /\
  journey pads s msg = ([s; own], Some (r, data ++ concat pads)).
Proof.
  intros own s r data pads [OL _] OU R LEN NP. assert (NDa := zlen_nonneg _ data).
  set (msg := at_hop (zlen (@nil Z)) [] [own] r data).
  assert (B : buildloop r [own] data = Ok msg).
  { unfold buildloop, enc_reply, enc_skip, to_bytes. change (256 ^ Z.of_nat 2) with 65536. replace (_ && _) with true by lia. cbn [bind].
    replace ((0 <=? 0) && (0 <? 65536)) with true by reflexivity. cbn [bind]. rewrite fold_fwds. reflexivity. }
  assert (L : zlen msg = 14 + zlen data).
  { assert (Z0 : zlen (@nil Z) = 0) by reflexivity. destruct (head_at [] [own] r data) as (_ & _ & _ & D); [rewrite Z0; lia|]. unfold msg. rewrite D. cbn [fwds flat_map]. rewrite !zlen_app, !zlen_cons, !zlen_nil. lia. }
  assert (S2 : loop_start own [LOOPMC] r data = Ok (Go LOOPMC msg)).
  { unfold loop_start. cbn zeta. replace (leqb LOOPMC LOOPMC) with true by reflexivity. cbn [negb andb]. replace (3 <? zlen [LOOPMC]) with false by reflexivity. cbn [app]. rewrite B. cbn [bind]. rewrite L. replace (1500 <? _) with false by lia. reflexivity. }
  exists msg. split; [exact S2|]. split; [exact S2|]. unfold msg. rewrite journey_hops; [reflexivity| |repeat constructor; assumption|exact R|reflexivity|]; rewrite !zlen_cons, !zlen_nil; lia.
Qed.
(** Requests that are refused. *)
Theorem loop_refused : forall own dests r data, 0 <= r < 65536 ->
  (dests <> [[0xCF; 0; 0; 0; 0; 0]] -> Exists (fun d => exists b t, d = b :: t /\ b mod 2 = 1) dests -> loop_start own dests r data = Ok BadAddress) /\
  (Forall unicast dests -> 3 < zlen dests -> loop_start own dests r data = Ok TooMany) /\
  (zlen own = 6 -> Forall mac_ok dests -> Forall unicast dests -> 1 <= zlen dests <= 3 -> 1500 < 14 + 8 * (zlen dests - 1) + zlen data -> loop_start own dests r data = Ok (TooLong 1482)).
Proof.
  intros own dests r data R.
  assert (UN : Forall unicast dests -> existsb ismulti dests = false).
  { intros DU. apply not_true_is_false. intros F. apply existsb_exists in F. destruct F as (d & IN & F). rewrite Forall_forall in DU. rewrite (ismulti_uni d (DU d IN)) in F. discriminate. }
  split; [|split].
  - intros NE EX. unfold loop_start. cbn zeta. destruct dests as [|d0 dl]; [inversion EX|].
    assert (M : existsb ismulti (d0 :: dl) = true).
    { apply existsb_exists. apply Exists_exists in EX. destruct EX as (d & IN & b & t & -> & H). exists (b :: t). split; [exact IN|]. cbn [ismulti]. rewrite Zodd_mod, H. reflexivity. }
    assert (Q : match d0 :: dl with [d] => leqb d LOOPMC | _ => false end = false).
    { destruct dl; [|reflexivity]. destruct (leqb d0 LOOPMC) eqn:E; [|reflexivity]. apply leqb_eq in E. subst d0. contradiction. }
    rewrite Q, M. reflexivity.
  - intros DU L. unfold loop_start. cbn zeta. destruct dests as [|d0 dl]; [rewrite zlen_nil in L; lia|]. rewrite (UN DU), andb_false_r. replace (3 <? _) with true by lia. reflexivity.
  - intros OL DM DU ND L. unfold loop_start. cbn zeta. destruct dests as [|first dl]; [rewrite zlen_nil in ND; lia|]. rewrite (UN DU), andb_false_r. rewrite zlen_cons in *. replace (3 <? _) with false by lia. cbn [app].
    set (msg := at_hop (zlen (@nil Z)) [] (dl ++ [own]) r data).
    assert (B : buildloop r (dl ++ [own]) data = Ok msg).
    { unfold buildloop, enc_reply, enc_skip, to_bytes. change (256 ^ Z.of_nat 2) with 65536. replace (_ && _) with true by lia. cbn [bind].
      replace ((0 <=? 0) && (0 <? 65536)) with true by reflexivity. cbn [bind]. rewrite fold_fwds. reflexivity. }
    rewrite B. cbn [bind]. assert (Z0 : zlen (@nil Z) = 0) by reflexivity. destruct (head_at [] (dl ++ [own]) r data) as (_ & _ & _ & D); [rewrite Z0; lia|]. unfold msg. rewrite D.
    inversion DM as [|? ? D1 D2]; subst.
    rewrite zlen_fwds by (apply Forall_app; split; [eapply Forall_impl; [|exact D2]; intros a [X _]; exact X|repeat constructor; exact OL]). rewrite zlen_app, zlen_cons, !zlen_nil. replace (1500 <? _) with true by lia. reflexivity.
Qed.

(** What a station does with any received byte string.  [skip] is its first two
    bytes, [fn] the two bytes at the place they point to. *)
Definition word_at (l : list Z) (i : Z) : Z := nth (Z.to_nat i) l 0 + 256 * nth (Z.to_nat (i + 1)) l 0.
Lemma word_from : forall l i, 0 <= i -> i + 2 <= zlen l -> le_dec (upto 2 (from i l)) = word_at l i.
Proof.
  intros l i H L. unfold word_at. replace (Z.to_nat (i + 1)) with (S (Z.to_nat i)) by lia. unfold from, zlen in *. remember (Z.to_nat i) as n. assert (LN : (n + 2 <= length l)%nat) by lia. clear - LN.
  revert n LN. induction l as [|x l IH]; intros n LN; cbn [length] in LN; [lia|]. destruct n as [|n].
  - destruct l as [|y l]; [cbn [length] in LN; lia|]. cbn [skipn nth]. change (upto 2 (x :: y :: l)) with [x; y]. cbn [le_dec]. lia.
  - cbn [skipn]. rewrite IH by lia. reflexivity.
Qed.
Theorem loop_station : forall buf, bytes_ok buf -> 2 <= zlen buf <= 65535 - 8 ->
  let skip := word_at buf 0 in let fn := word_at buf (skip + 2) in
  (skip mod 2 = 1 \/ zlen buf - 4 < skip -> loop_handle buf = Ok LIgnore) /\
  (skip mod 2 = 0 -> skip <= zlen buf - 4 ->
    (fn <> 1 -> fn <> 2 -> loop_handle buf = Ok LIgnore) /\
    (fn = 2 -> skip + 10 <= zlen buf ->
      (nth (Z.to_nat (skip + 4)) buf 0 mod 2 = 1 -> loop_handle buf = Ok LIgnore) /\
      (nth (Z.to_nat (skip + 4)) buf 0 mod 2 = 0 -> loop_handle buf = Ok (LSend (le_enc 2 (skip + 8) ++ from 2 buf) (upto 6 (from (skip + 4) buf))))) /\
    (fn = 2 -> zlen buf < skip + 10 -> loop_handle buf = Err EDecode) /\
    (fn = 1 -> skip + 6 <= zlen buf -> loop_handle buf = Ok (LDeliver (word_at buf (skip + 4)) (from (skip + 6) buf))) /\
    (fn = 1 -> zlen buf < skip + 6 -> loop_handle buf = Err EDecode)).
Proof.
  intros buf BO LB. cbn zeta. set (skip := word_at buf 0).
  assert (H0 : le_dec (upto 2 buf) = skip) by (unfold skip; rewrite <- (word_from buf 0) by lia; reflexivity).
  assert (NZ : forall i, 0 <= nth i buf 0 < 256).
  { intros i. destruct (nth_in_or_default i buf 0) as [IN|IN]; [unfold bytes_ok in BO; rewrite Forall_forall in BO; apply (BO _ IN)|rewrite IN; lia]. }
  assert (SR : 0 <= skip) by (unfold skip, word_at; pose proof (NZ (Z.to_nat 0)); pose proof (NZ (Z.to_nat (0 + 1))); lia).
  assert (RQ : require buf 2 = Ok tt) by (unfold require; replace (zlen buf <? 2) with false by lia; reflexivity).
  unfold loop_handle. rewrite RQ. cbn [bind]. rewrite H0.
  split.
  - intros [O|O]; [rewrite Zodd_mod, O; reflexivity|]. replace (_ <? skip) with true by lia. rewrite orb_true_r. reflexivity.
  - intros O L. replace (Z.odd skip) with false by (rewrite Zodd_mod, O; reflexivity). replace (_ <? skip) with false by lia. cbn [orb].
    rewrite (word_from buf (skip + 2)) by lia. set (fn := word_at buf (skip + 2)).
    assert (FF : from 2 (from (skip + 2) buf) = from (skip + 4) buf).
    { unfold from. rewrite <- skipn_add. f_equal. lia. }
    rewrite FF.
    assert (LF : zlen (from (skip + 4) buf) = zlen buf - (skip + 4)) by (apply zlen_from; lia).
    split; [|split; [|split; [|split]]].
    + intros A B. replace (fn =? 2) with false by lia. replace (fn =? 1) with false by lia. reflexivity.
    + intros -> L2. cbn [Z.eqb Pos.eqb]. unfold require. rewrite LF. replace (_ <? 6) with false by lia. cbn [bind].
      assert (M : ismulti (upto 6 (from (skip + 4) buf)) = Z.odd (nth (Z.to_nat (skip + 4)) buf 0)).
      { unfold from. assert (LN : (Z.to_nat (skip + 4) < length buf)%nat) by (unfold zlen in *; lia). revert LN. generalize (Z.to_nat (skip + 4)). clear. induction buf as [|x l IH]; intros n LN; cbn [length] in LN; [lia|].
        destruct n as [|n]; [reflexivity|]. cbn [skipn nth]. apply IH. lia. }
      rewrite M. split; intros X.
      * rewrite Zodd_mod, X. reflexivity.
      * replace (Z.odd _) with false by (rewrite Zodd_mod, X; reflexivity). unfold enc_skip, to_bytes. change (256 ^ Z.of_nat 2) with 65536. replace (_ && _) with true by lia. reflexivity.
    + intros -> L2. cbn [Z.eqb Pos.eqb]. unfold require. rewrite LF. replace (_ <? 6) with true by lia. reflexivity.
    + intros -> L2. cbn [Z.eqb Pos.eqb]. unfold require. rewrite LF. replace (_ <? 2) with false by lia. cbn [bind]. rewrite word_from by lia.
      f_equal. f_equal. unfold from. rewrite <- skipn_add. f_equal. lia.
    + intros -> L2. cbn [Z.eqb Pos.eqb]. unfold require. rewrite LF. replace (_ <? 2) with true by lia. reflexivity.
Qed.
(** Any station on the LAN can stop the node: a message shorter than two bytes,
    or one whose last bytes are a function code without its argument, is a
    decode error that nothing catches (node.py:299-329).  The second case needs
    no short frame: here it has the 46 bytes of the shortest Ethernet frame. *)
Theorem loop_crash_refuted : loop_handle [0] = Err EDecode /\
  loop_handle ([42; 0] ++ repeat 0 42 ++ [2; 0]) = Err EDecode /\ loop_handle ([42; 0] ++ repeat 0 42 ++ [1; 0]) = Err EDecode.
Proof. repeat split. Qed.
(** The reply is not only the original data. *)
Theorem loop_padding_refuted : exists own dests r data pads msg,
  mac_ok own /\ Forall mac_ok dests /\ loop_start own dests r data = Ok (Go (hd [] dests) msg) /\ zlen msg < 46 /\
  journey pads (hd [] dests) msg = (dests ++ [own], Some (r, data ++ [66; 66])) /\ Forall (fun p => zlen p <= 2) pads.
Proof.
  exists [170; 0; 4; 0; 1; 4], [[170; 0; 4; 0; 2; 4]], 5, [80; 121], [[66; 66]; []]. eexists. split; [split; [reflexivity|repeat constructor; unfold byte_ok; lia]|].
  split; [repeat constructor; unfold byte_ok; lia|]. split; [vm_compute; reflexivity|]. split; [reflexivity|]. split; [vm_compute; reflexivity|]. repeat constructor; unfold zlen; cbn; lia.
Qed.
Example loop_example :
  let own := [170; 0; 4; 0; 1; 4] in let a := [170; 0; 4; 0; 2; 4] in let b := [8; 0; 43; 1; 2; 3] in let c := [170; 0; 4; 0; 9; 8] in
  exists msg, loop_start own [a; b; c] 258 [1; 2; 3] = Ok (Go a msg) /\ zlen msg = 33 /\ journey [[66]; []; [67; 68]; []] a msg = ([a; b; c; own], Some (258, [1; 2; 3; 66; 67; 68])) /\
  loop_start own [a; LOOPMC] 258 [1] = Ok BadAddress /\ loop_start own [a; b; c; a] 258 [1] = Ok TooMany /\ loop_start own [a] 258 (repeat 0 1487) = Ok (TooLong 1482) /\
  (exists m, loop_start own [a] 258 (repeat 0 1486) = Ok (Go a m)).
Proof. cbn zeta. eexists. split; [vm_compute; reflexivity|]. repeat (split; [vm_compute; reflexivity|]). eexists. vm_compute. reflexivity. Qed.

Print Assumptions loop_returns.
Print Assumptions loop_assist_returns.
Print Assumptions loop_refused.
Print Assumptions loop_station.
Print Assumptions loop_crash_refuted.
Print Assumptions loop_padding_refuted.
