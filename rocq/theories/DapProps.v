(** C54: DAP messages packed in one buffer are split at their boundaries. *)
From Verif Require Import Base PacketModel DapModel.

(** * Specification *)
(** A message of this implementation: a supported type, no stream id and no
    bit count. *)
Definition plain_msg (m : dmsg) : Prop :=
  In (dm_type m) [1; 2; 3; 4; 5; 6; 7; 8; 9; 13; 14; 15] /\ dm_sid m = None /\ dm_bitcnt m = None.
(** The byte form: type, flags, length of what follows, the rest. *)
Inductive with_length (m : dmsg) : list Z -> Prop :=
| wl_short : zlen (dm_body m) < 256 -> with_length m (dm_type m :: 2 :: zlen (dm_body m) :: dm_body m)
| wl_long : zlen (dm_body m) < 65536 ->
    with_length m (dm_type m :: 6 :: zlen (dm_body m) mod 256 :: zlen (dm_body m) / 256 :: dm_body m).
Definition without_length (m : dmsg) : list Z := dm_type m :: 0 :: dm_body m.
(** A buffer made of these messages: only the last may be without length. *)
Inductive blocked : list dmsg -> list Z -> Prop :=
| bl_nil : blocked [] []
| bl_last : forall m, plain_msg m -> blocked [m] (without_length m)
| bl_cons : forall m b ms rest, plain_msg m -> with_length m b -> blocked ms rest -> blocked (m :: ms) (b ++ rest).
(** Taking messages off a buffer until it is used up. *)
Inductive unpack : list Z -> list dmsg -> Prop :=
| up_nil : unpack [] []
| up_cons : forall buf m rest ms, dap_decode buf = Ok (m, rest) -> unpack rest ms -> unpack buf (m :: ms).

(** * Lemmas *)
Lemma known : forall t, In t [1; 2; 3; 4; 5; 6; 7; 8; 9; 13; 14; 15] -> known_type t = true /\ to_bytes 1 t = Ok [t] .
Proof.
  intros t H. cbn [In] in H. repeat (destruct H as [<- | H]; [split; reflexivity|]). destruct H.
Qed.
Lemma dmsg_eta : forall m, plain_msg m -> {| dm_type := dm_type m; dm_sid := None; dm_bitcnt := None; dm_body := dm_body m |} = m.
Proof. intros [t s b y] (_ & A & B). cbn [dm_sid dm_bitcnt] in *. subst. reflexivity. Qed.
Lemma z4 : forall (a b c d : Z) l, zlen (a :: b :: c :: d :: l) = zlen l + 4.
Proof. intros. rewrite !zlen_cons. lia. Qed.
Lemma z3 : forall (a b c : Z) l, zlen (a :: b :: c :: l) = zlen l + 3.
Proof. intros. rewrite !zlen_cons. lia. Qed.

Lemma decode_plain : forall m, plain_msg m -> dap_decode (without_length m) = Ok (m, []).
Proof.
  intros m H. pose proof H as (T & S0 & B0). unfold without_length, dap_decode. rewrite (proj1 (known _ T)).
  unfold dap_split. pose proof (zlen_nonneg _ (dm_body m)).
  replace (1 <? zlen (dm_type m :: 0 :: dm_body m)) with true by (rewrite !zlen_cons; lia).
  cbn [nth]. change (0 =? 0) with true. cbn [bind dap_header].
  change (ex_dec 5 (0 :: dm_body m)) with (Ok (0, dm_body m) : res (Z * list Z)). cbn [bind].
  change (Z.testbit 0 5 || Z.testbit 0 6) with false. change (Z.testbit 0 0) with false. change (Z.testbit 0 1) with false. change (Z.testbit 0 2) with false. change (Z.testbit 0 3) with false. cbn [opt_dec bind]. rewrite (dmsg_eta m H). reflexivity.
Qed.
Lemma shl8 : forall z, Z.shiftl z 8 = z * 256.
Proof. intros. rewrite Z.shiftl_mul_pow2 by lia. reflexivity. Qed.
Lemma decode_counted : forall m b rest, plain_msg m -> with_length m b -> dap_decode (b ++ rest) = Ok (m, rest).
Proof.
  intros m b rest H W. pose proof H as (T & S0 & B0). pose proof (zlen_nonneg _ (dm_body m)) as N. pose proof (zlen_nonneg _ rest) as NR.
  destruct W as [W|W]; cbn [app]; unfold dap_decode; rewrite (proj1 (known _ T)); unfold dap_split.
  - set (w := dm_type m :: 2 :: zlen (dm_body m) :: dm_body m).
    assert (E : dm_type m :: 2 :: zlen (dm_body m) :: dm_body m ++ rest = w ++ rest) by reflexivity. rewrite E.
    assert (ZL : zlen w = zlen (dm_body m) + 3) by apply z3.
    replace (1 <? zlen (w ++ rest)) with true by (rewrite zlen_app; lia).
    change (nth 1 (w ++ rest) 0) with 2. change (2 =? 0) with false. change (2 =? 2) with true. cbn [bind].
    assert (RQ : require (w ++ rest) 3 = Ok tt) by (unfold require; rewrite zlen_app; destruct (zlen w + zlen rest <? 3) eqn:X; [lia|reflexivity]).
    rewrite RQ. cbn [bind]. change (nth 2 (w ++ rest) 0) with (zlen (dm_body m)). rewrite <- ZL.
    rewrite upto_app_exact, from_app_exact by reflexivity. rewrite Z.eqb_refl. cbn [bind]. unfold w, dap_header.
    change (ex_dec 5 (2 :: zlen (dm_body m) :: dm_body m)) with (Ok (2, zlen (dm_body m) :: dm_body m) : res (Z * list Z)). cbn [bind].
    change (Z.testbit 2 5 || Z.testbit 2 6) with false.
    change (Z.testbit 2 0) with false. change (Z.testbit 2 1) with true. change (Z.testbit 2 2) with false. change (Z.testbit 2 3) with false.
    cbn [opt_dec bind]. rewrite (dmsg_eta m H). reflexivity.
  - set (lo := zlen (dm_body m) mod 256). set (hi := zlen (dm_body m) / 256). set (w := dm_type m :: 6 :: lo :: hi :: dm_body m).
    assert (E : dm_type m :: 6 :: lo :: hi :: dm_body m ++ rest = w ++ rest) by reflexivity. rewrite E.
    assert (ZL : zlen w = zlen (dm_body m) + 4) by apply z4.
    replace (1 <? zlen (w ++ rest)) with true by (rewrite zlen_app; lia).
    change (nth 1 (w ++ rest) 0) with 6. change (6 =? 0) with false. change (6 =? 2) with false. change (6 =? 6) with true. cbn [bind].
    assert (RQ : require (w ++ rest) 4 = Ok tt) by (unfold require; rewrite zlen_app; destruct (zlen w + zlen rest <? 4) eqn:X; [lia|reflexivity]).
    rewrite RQ. cbn [bind]. change (nth 2 (w ++ rest) 0) with lo. change (nth 3 (w ++ rest) 0) with hi.
    replace (lo + Z.shiftl hi 8 + 4) with (zlen w) by (rewrite shl8; subst lo hi; lia).
    rewrite upto_app_exact, from_app_exact by reflexivity. rewrite Z.eqb_refl. cbn [bind]. unfold w, dap_header.
    change (ex_dec 5 (6 :: lo :: hi :: dm_body m)) with (Ok (6, lo :: hi :: dm_body m) : res (Z * list Z)). cbn [bind].
    change (Z.testbit 6 5 || Z.testbit 6 6) with false.
    change (Z.testbit 6 0) with false. change (Z.testbit 6 1) with true. change (Z.testbit 6 2) with true. change (Z.testbit 6 3) with false.
    cbn [opt_dec bind]. rewrite (dmsg_eta m H). reflexivity.
Qed.
Lemma unpack_blocked : forall ms buf, blocked ms buf -> unpack buf ms.
Proof.
  induction 1 as [|m P|m b ms rest P W B IH]; [constructor| |].
  - econstructor; [apply decode_plain; exact P|constructor].
  - econstructor; [apply decode_counted; eassumption|exact IH].
Qed.
Lemma unpack_fun : forall buf a, unpack buf a -> forall b, unpack buf b -> a = b.
Proof.
  induction 1 as [|buf m rest ms D U IH]; intros b V.
  - inversion V as [|? ? ? ? D2]; subst; [reflexivity|discriminate].
  - inversion V as [|? m2 rest2 ms2 D2 U2]; subst; [discriminate|]. rewrite D in D2. assert (m2 = m) by congruence. assert (rest2 = rest) by congruence. subst. f_equal. auto.
Qed.

(** ** C54, receiving: a buffer made of messages is taken apart into exactly
    these messages, in one way only. *)
Theorem dap_blocks : forall ms buf, blocked ms buf -> unpack buf ms /\ forall other, unpack buf other -> other = ms.
Proof. intros ms buf B. pose proof (unpack_blocked _ _ B) as U. split; [exact U|]. intros o V. symmetry. eapply unpack_fun; eauto. Qed.
Print Assumptions dap_blocks.

(** A single message without length, with any header fields, decodes to
    itself. *)
Definition header_ok (m : dmsg) : Prop :=
  In (dm_type m) [1; 2; 3; 4; 5; 6; 7; 8; 9; 13; 14; 15] /\
  match dm_sid m with Some v => 0 <= v < 256 | None => True end /\ match dm_bitcnt m with Some v => 0 <= v < 256 | None => True end.
Theorem dap_single : forall m, header_ok m -> exists b, dap_encode m L0 = Ok b /\ dap_decode b = Ok (m, []).
Proof.
  intros [t s c y] (T & S & C). cbn [dm_type dm_sid dm_bitcnt] in *. destruct (known t T) as [K KB]. unfold dap_encode. cbn [dm_type dm_sid dm_bitcnt dm_body]. rewrite KB. cbn [bind].
  assert (B1 : forall v, 0 <= v < 256 -> to_bytes 1 v = Ok [v]) by (intros v H; unfold to_bytes; change (256 ^ Z.of_nat 1) with 256; replace ((0 <=? v) && (v <? 256)) with true by lia; cbn [le_enc]; rewrite Z.mod_small by lia; reflexivity).
  pose proof (zlen_nonneg _ y) as NY.
  assert (UA : forall l : list Z, upto (zlen l) l = l) by (intros l; unfold upto, zlen; rewrite Nat2Z.id; apply firstn_all).
  assert (FA : forall l : list Z, from (zlen l) l = []) by (intros l; unfold from, zlen; rewrite Nat2Z.id; apply skipn_all).
  destruct s as [s|], c as [c|]; unfold dflags; cbn [isSome dm_sid dm_bitcnt bit opt_b]; rewrite ?(B1 _ S), ?(B1 _ C); cbn [bind].
  - change (ex_enc 5 _) with (Ok [9] : res (list Z)). cbn [bind app]. eexists. split; [reflexivity|]. unfold dap_decode, dap_split. rewrite K. replace (1 <? zlen (t :: 9 :: s :: c :: y)) with true by (rewrite !zlen_cons; lia). cbn [nth]. change (9 =? 0) with false. change (9 =? 2) with false. change (9 =? 6) with false. cbn [bind]. rewrite UA, FA. rewrite Z.eqb_refl. reflexivity.
  - change (ex_enc 5 _) with (Ok [1] : res (list Z)). cbn [bind app]. eexists. split; [reflexivity|]. unfold dap_decode, dap_split. rewrite K. replace (1 <? zlen (t :: 1 :: s :: y)) with true by (rewrite !zlen_cons; lia). cbn [nth]. change (1 =? 0) with false. change (1 =? 2) with false. change (1 =? 6) with false. cbn [bind]. rewrite UA, FA. rewrite Z.eqb_refl. reflexivity.
  - change (ex_enc 5 _) with (Ok [8] : res (list Z)). cbn [bind app]. eexists. split; [reflexivity|]. unfold dap_decode, dap_split. rewrite K. replace (1 <? zlen (t :: 8 :: c :: y)) with true by (rewrite !zlen_cons; lia). cbn [nth]. change (8 =? 0) with false. change (8 =? 2) with false. change (8 =? 6) with false. cbn [bind]. rewrite UA, FA. rewrite Z.eqb_refl. reflexivity.
  - change (ex_enc 5 _) with (Ok [0] : res (list Z)). cbn [bind app]. eexists. split; [reflexivity|]. apply (decode_plain {| dm_type := t; dm_sid := None; dm_bitcnt := None; dm_body := y |}). split; [exact T|]. split; reflexivity.
Qed.
Print Assumptions dap_single.
Example dap_single_ex : dap_encode {| dm_type := 8; dm_sid := Some 3; dm_bitcnt := Some 7; dm_body := [1; 2] |} L0 = Ok [8; 9; 3; 7; 1; 2].
Proof. reflexivity. Qed.

(** Every accepted buffer, of our making or not: no byte is lost or used
    twice; a message with a length field ends where that field says, and any
    other one takes the whole buffer. *)
Theorem dap_exact : forall buf m rest, bytes_ok buf -> dap_decode buf = Ok (m, rest) ->
  exists b, buf = b ++ rest /\ hd_error b = Some (dm_type m) /\
    match buf with
    | _ :: 2 :: n :: _ => zlen b = 3 + n
    | _ :: 6 :: lo :: hi :: _ => zlen b = 4 + lo + 256 * hi
    | _ => rest = []
    end.
Proof.
  intros buf m rest OK D. unfold dap_decode in D. destruct buf as [|t r]; [discriminate|].
  destruct (known_type t); [|discriminate]. remember (t :: r) as buf eqn:EB.
  destruct (dap_split buf) as [[b q]|e] eqn:SP; [|discriminate]. cbn [bind] in D.
  destruct (dap_header b) as [m'|e] eqn:HD; [|discriminate]. cbn [bind] in D.
  assert (m' = m) by congruence. assert (q = rest) by congruence. subst m' q. clear D. exists b.
  assert (HH : hd_error b = Some (dm_type m)).
  { unfold dap_header in HD. destruct b as [|x b']; [discriminate|]. destruct (match b' with [] => Ok (0, []) | _ => ex_dec 5 b' end) as [[f r2]|]; [|discriminate]. cbn [bind] in HD.
    destruct (Z.testbit f 5 || Z.testbit f 6); [discriminate|].
    destruct (opt_dec (Z.testbit f 0) r2) as [a0 r3]. destruct (opt_dec (Z.testbit f 1) r3) as [a1 r4]. destruct (opt_dec (Z.testbit f 2) r4) as [a2 r5]. destruct (opt_dec (Z.testbit f 3) r5) as [a3 r6].
    injection HD as <-. reflexivity. }
  unfold dap_split in SP. destruct (1 <? zlen buf) eqn:L1E.
  2:{ injection SP as <- <-. split; [symmetry; apply app_nil_r|]. split; [exact HH|]. subst buf. destruct r as [|y r]; [reflexivity|]. rewrite !zlen_cons in L1E. pose proof (zlen_nonneg _ r). lia. }
  destruct r as [|f r]; [subst buf; discriminate|].
  assert (NF : nth 1 buf 0 = f) by (subst buf; reflexivity). rewrite NF in SP.
  destruct (f =? 0) eqn:F0.
  { injection SP as <- <-. split; [symmetry; apply app_nil_r|]. split; [exact HH|]. subst buf. apply Z.eqb_eq in F0. subst f. reflexivity. }
  destruct (f =? 2) eqn:F2.
  { apply Z.eqb_eq in F2. subst f. destruct (require buf 3) eqn:RQ; [|discriminate]. cbn [bind] in SP.
    destruct (zlen (upto (nth 2 buf 0 + 3) buf) =? nth 2 buf 0 + 3) eqn:LL; [|discriminate]. injection SP as <- <-.
    split; [symmetry; apply upto_from|]. split; [exact HH|]. apply Z.eqb_eq in LL.
    subst buf. destruct r as [|n r]; [discriminate RQ|]. rewrite LL. cbn [nth]. lia. }
  destruct (f =? 6) eqn:F6.
  { apply Z.eqb_eq in F6. subst f. destruct (require buf 4) eqn:RQ; [|discriminate]. cbn [bind] in SP. rewrite shl8 in SP.
    destruct (zlen (upto (nth 2 buf 0 + nth 3 buf 0 * 256 + 4) buf) =? nth 2 buf 0 + nth 3 buf 0 * 256 + 4) eqn:LL; [|discriminate]. injection SP as <- <-.
    split; [symmetry; apply upto_from|]. split; [exact HH|]. apply Z.eqb_eq in LL.
    subst buf. destruct r as [|n r]; [discriminate RQ|]. destruct r as [|n2 r]; [discriminate RQ|]. rewrite LL. cbn [nth]. lia. }
  cbn [bind] in SP. destruct (zlen (upto (zlen buf) buf) =? zlen buf); [|discriminate].
  assert (U : from (zlen buf) buf = []) by (rewrite <- (app_nil_r buf) at 2; apply from_app_exact; reflexivity).
  rewrite U in SP. injection SP as E <-.
  assert (U2 : upto (zlen buf) buf = buf) by (rewrite <- (app_nil_r buf) at 2; apply upto_app_exact; reflexivity). rewrite U2 in E.
  split; [rewrite app_nil_r; auto|]. split; [exact HH|].
  subst buf. apply Z.eqb_neq in F2, F6. destruct f as [|p|p]; try reflexivity.
  repeat (destruct p as [p|p|]; try reflexivity; try (exfalso; apply F2; reflexivity); try (exfalso; apply F6; reflexivity)).
Qed.
Print Assumptions dap_exact.

(** * The sending side *)
(** A message that can be sent: its fields are encodable. *)
Definition sendable (m : dmsg) : Prop := plain_msg m /\ dm_type m <> 1.
Inductive dop := Send (m : dmsg) | Flush.
(** A run of calls; the result is the list of buffers handed to the
    connection. *)
Fixpoint calls (c : dcfg) (s : dsess) (l : list dop) : res (dsess * list (list Z)) :=
  match l with
  | [] => Ok (s, [])
  | op :: t =>
      let* (s, o) := match op with Send m => dap_send c s m | Flush => Ok (dap_flush s) end in
      let* (s, o2) := calls c s t in Ok (s, o ++ o2)
  end.
Definition sent (l : list dop) : list dmsg := flat_map (fun op => match op with Send m => [m] | Flush => [] end) l.
(** The receiving side: messages returned by successive [recv] calls until it
    has to wait. *)
Inductive reads (myc : list Z) : dsess -> list dinput -> list dmsg -> dsess -> Prop :=
| rd_wait : forall s inp s' f, dap_recv f myc s inp = Ok (RWait, s', [], []) -> reads myc s inp [] s'
| rd_msg : forall s inp f m s1 inp1 ms s2, dap_recv f myc s inp = Ok (RMsg m, s1, inp1, []) ->
    reads myc s1 inp1 ms s2 -> reads myc s inp (m :: ms) s2.

Lemma enc_plain : forall m, plain_msg m -> dap_encode m L0 = Ok (without_length m).
Proof.
  intros m (T & S0 & B0). unfold dap_encode. rewrite (proj2 (known _ T)). cbn [bind]. unfold dflags. rewrite S0, B0. cbn [isSome].
  change (ex_enc 5 _) with (Ok [0] : res (list Z)). reflexivity.
Qed.
Lemma tb1 : forall v, 0 <= v < 256 -> to_bytes 1 v = Ok [v].
Proof. intros v H. unfold to_bytes. change (256 ^ Z.of_nat 1) with 256. replace ((0 <=? v) && (v <? 256)) with true by lia. cbn [le_enc]. rewrite Z.mod_small by lia. reflexivity. Qed.
Lemma enc_short : forall m, plain_msg m -> zlen (dm_body m) < 256 ->
  dap_encode m (L1 (zlen (dm_body m))) = Ok (dm_type m :: 2 :: zlen (dm_body m) :: dm_body m).
Proof.
  intros m (T & S0 & B0) L. pose proof (zlen_nonneg _ (dm_body m)). unfold dap_encode. rewrite (proj2 (known _ T)). cbn [bind]. unfold dflags. rewrite S0, B0. cbn [isSome].
  change (ex_enc 5 _) with (Ok [2] : res (list Z)). cbn [bind opt_b]. rewrite tb1 by lia. reflexivity.
Qed.
Lemma enc_long : forall m, plain_msg m -> zlen (dm_body m) < 65536 ->
  dap_encode m (L2 (Z.land (zlen (dm_body m)) 255) (Z.shiftr (zlen (dm_body m)) 8))
  = Ok (dm_type m :: 6 :: zlen (dm_body m) mod 256 :: zlen (dm_body m) / 256 :: dm_body m).
Proof.
  intros m (T & S0 & B0) L. pose proof (zlen_nonneg _ (dm_body m)). unfold dap_encode. rewrite (proj2 (known _ T)). cbn [bind]. unfold dflags. rewrite S0, B0. cbn [isSome].
  change (ex_enc 5 _) with (Ok [6] : res (list Z)). cbn [bind opt_b].
  change 255 with (Z.ones 8). rewrite Z.land_ones by lia. rewrite Z.shiftr_div_pow2 by lia. change (2 ^ 8) with 256.
  rewrite (tb1 (zlen (dm_body m) mod 256)) by lia. rewrite (tb1 (zlen (dm_body m) / 256)) by lia. reflexivity.
Qed.
Lemma len_plain : forall m, zlen (without_length m) = zlen (dm_body m) + 2.
Proof. intros. unfold without_length. rewrite !zlen_cons. lia. Qed.

(** The pending messages [ms] are in the transmit list. *)
Record tinv (c : dcfg) (s : dsess) (ms : list dmsg) : Prop := {
  t_plain : Forall plain_msg ms;
  t_img : Forall2 with_length ms (d_tx s);
  t_len : d_txlen s = zlen (concat (d_tx s));
  t_lim : d_txlen s <= d_bufsiz c + 2;
  t_nobl : d_blocking c = false -> ms = []
}.
Lemma blocked_counted : forall ms bs, Forall plain_msg ms -> Forall2 with_length ms bs -> blocked ms (concat bs).
Proof.
  intros ms bs P F. revert P. induction F as [|m b ms bs W F IH]; intros P; cbn [concat]; [constructor|].
  inversion P; subst. constructor; auto.
Qed.
Lemma blocked_counted_last : forall ms bs m, Forall plain_msg ms -> plain_msg m -> Forall2 with_length ms bs -> blocked (ms ++ [m]) (concat (bs ++ [without_length m])).
Proof.
  intros ms bs m P PM F. revert P. induction F as [|m1 b ms bs W F IH]; intros P; cbn [concat app]; [rewrite app_nil_r; constructor; exact PM|].
  inversion P; subst. constructor; auto.
Qed.
(** One call: what it hands over are whole blocks of the oldest messages. *)
Inductive blocks : list dmsg -> list (list Z) -> Prop :=
| bk_nil : blocks [] []
| bk_cons : forall a b ms os, a <> [] -> blocked a b -> blocks ms os -> blocks (a ++ ms) (b :: os).
Lemma blocks_app : forall a x, blocks a x -> forall b y, blocks b y -> blocks (a ++ b) (x ++ y).
Proof. induction 1; intros b0 y B; cbn [app]; [exact B|]. rewrite <- app_assoc. constructor; auto. Qed.
Lemma blocks_one : forall a b, a <> [] -> blocked a b -> blocks a [b].
Proof. intros a b N B. rewrite <- (app_nil_r a). constructor; [exact N|exact B|constructor]. Qed.

Lemma flush_ok : forall c s ms, -2 <= d_bufsiz c -> tinv c s ms -> exists s' o, dap_flush s = (s', o) /\ tinv c s' [] /\ d_tx s' = [] /\ d_txlen s' = 0 /\ d_rx s' = d_rx s /\
  blocks ms o /\ Forall (fun b => zlen b <= d_bufsiz c + 2) o.
Proof.
  intros c s ms CB [P F L M NB]. unfold dap_flush. destruct (d_tx s) as [|b bs] eqn:E.
  - inversion F; subst. exists s, []. split; [reflexivity|]. rewrite E. cbn [concat] in L. change (zlen []) with 0 in L.
    split; [constructor; rewrite ?E; auto|]. split; [reflexivity|]. split; [exact L|]. split; [reflexivity|]. split; constructor.
  - exists (with_tx s [] 0), [concat (b :: bs)]. split; [reflexivity|]. split; [constructor; cbn [with_tx d_tx d_txlen]; auto; lia|].
    split; [reflexivity|]. split; [reflexivity|]. split; [reflexivity|]. split.
    + apply blocks_one; [intros ->; inversion F|]. apply blocked_counted; assumption.
    + constructor; [lia|constructor].
Qed.
Lemma forall2_snoc : forall A B (R : A -> B -> Prop) a b x y, Forall2 R a b -> R x y -> Forall2 R (a ++ [x]) (b ++ [y]).
Proof. intros. apply Forall2_app; [assumption|]. constructor; [assumption|constructor]. Qed.
Lemma send_ok : forall c s ms m, -2 <= d_bufsiz c <= 65535 -> tinv c s ms -> plain_msg m ->
  zlen (dm_body m) + 2 <= d_bufsiz c ->
  exists s' o ms1 ms2, dap_send c s m = Ok (s', o) /\ tinv c s' ms2 /\ ms ++ [m] = ms1 ++ ms2 /\ blocks ms1 o /\
    Forall (fun b => zlen b <= d_bufsiz c + 2) o.
Proof.
  intros c s ms m CB T PM SZ. pose proof (zlen_nonneg _ (dm_body m)) as N. unfold dap_send. rewrite (enc_plain m PM). cbn [bind]. rewrite len_plain.
  destruct (d_bufsiz c <? zlen (dm_body m) + 2) eqn:X; [lia|]. clear X.
  destruct (d_blocking c) eqn:DB; cbn [negb].
  2:{ pose proof (t_nobl _ _ _ T DB). subst ms.
      exists s, [without_length m], [m], []. split; [reflexivity|]. split; [exact T|]. split; [reflexivity|]. split; [apply blocks_one; [discriminate|constructor; exact PM]|].
      constructor; [rewrite len_plain; lia|constructor]. }
  assert (PRE : exists s1 o1 a b, (if d_bufsiz c <? d_txlen s + (zlen (dm_body m) + 2) then dap_flush s else (s, [])) = (s1, o1) /\ tinv c s1 b /\ ms = a ++ b /\ blocks a o1 /\
     Forall (fun b => zlen b <= d_bufsiz c + 2) o1 /\ d_txlen s1 + (zlen (dm_body m) + 2) <= d_bufsiz c).
  { destruct (d_bufsiz c <? d_txlen s + (zlen (dm_body m) + 2)) eqn:X.
    - destruct (flush_ok c s ms (proj1 CB) T) as (s1 & o1 & E & T1 & _ & Z0 & _ & B1 & L1). exists s1, o1, ms, []. rewrite app_nil_r.
      split; [exact E|]. split; [exact T1|]. split; [reflexivity|]. split; [exact B1|]. split; [exact L1|]. lia.
    - exists s, [], [], ms. split; [reflexivity|]. split; [exact T|]. split; [reflexivity|]. split; [constructor|]. split; [constructor|]. lia. }
  destruct PRE as (s1 & o1 & a & b & -> & T1 & -> & B1 & L1 & SP). destruct T1 as [P F L M NB].
  destruct ((254 <? zlen (dm_body m) + 2) && negb (d_len2 c)) eqn:LONG.
  - unfold dap_flush. cbn [with_tx d_tx d_txlen]. destruct (d_tx s1 ++ [without_length m]) as [|y ys] eqn:E; [destruct (d_tx s1); discriminate|]. rewrite <- E.
    eexists _, _, ((a ++ b) ++ [m]), []. split; [reflexivity|]. split; [constructor; cbn [with_tx d_tx d_txlen concat]; auto; change (zlen []) with 0; lia|].
    split; [rewrite app_nil_r; reflexivity|]. split.
    + rewrite <- app_assoc. apply blocks_app; [exact B1|]. apply blocks_one; [destruct b; discriminate|]. apply blocked_counted_last; assumption.
    + apply Forall_app. split; [exact L1|]. constructor; [|constructor]. rewrite concat_app. cbn [concat]. rewrite app_nil_r, zlen_app, len_plain, <- L. lia.
  - destruct (zlen (dm_body m) + 2 <? 255) eqn:SH.
    + replace (zlen (dm_body m) + 2 + 1 - 3) with (zlen (dm_body m)) by lia. rewrite (enc_short m PM) by lia. cbn [bind].
      eexists _, _, a, (b ++ [m]). split; [reflexivity|]. split; [|split; [rewrite <- app_assoc; reflexivity|]; split; [exact B1|exact L1]].
      constructor; cbn [with_tx d_tx d_txlen].
      * apply Forall_app. split; [exact P|]. constructor; [exact PM|constructor].
      * apply forall2_snoc; [exact F|]. apply wl_short. lia.
      * rewrite concat_app, zlen_app. cbn [concat]. rewrite app_nil_r, z3, <- L. lia.
      * lia.
      * congruence.
    + replace (zlen (dm_body m) + 2 + 2 - 4) with (zlen (dm_body m)) by lia. rewrite (enc_long m PM) by lia. cbn [bind].
      eexists _, _, a, (b ++ [m]). split; [reflexivity|]. split; [|split; [rewrite <- app_assoc; reflexivity|]; split; [exact B1|exact L1]].
      constructor; cbn [with_tx d_tx d_txlen].
      * apply Forall_app. split; [exact P|]. constructor; [exact PM|constructor].
      * apply forall2_snoc; [exact F|]. apply wl_long. lia.
      * rewrite concat_app, zlen_app. cbn [concat]. rewrite app_nil_r, z4, <- L. lia.
      * lia.
      * congruence.
Qed.

Definition fits (c : dcfg) (op : dop) : Prop := match op with Send m => plain_msg m /\ zlen (dm_body m) + 2 <= d_bufsiz c | Flush => True end.
Lemma calls_ok : forall c, -2 <= d_bufsiz c <= 65535 -> forall l s ms, tinv c s ms -> Forall (fits c) l ->
  exists s' o a b, calls c s l = Ok (s', o) /\ tinv c s' b /\ ms ++ sent l = a ++ b /\ blocks a o /\ Forall (fun b => zlen b <= d_bufsiz c + 2) o.
Proof.
  intros c CB. induction l as [|op l IH]; intros s ms T FA; cbn [calls sent flat_map].
  - exists s, [], [], ms. rewrite app_nil_r. split; [reflexivity|]. split; [exact T|]. split; [reflexivity|]. split; constructor.
  - inversion FA as [|? ? F0 FR]; subst. destruct op as [m|].
    + destruct F0 as [PM SZ]. destruct (send_ok c s ms m CB T PM SZ) as (s1 & o1 & a1 & b1 & -> & T1 & E1 & B1 & L1). cbn [bind].
      destruct (IH s1 b1 T1 FR) as (s2 & o2 & a2 & b2 & -> & T2 & E2 & B2 & L2). cbn [bind].
      exists s2, (o1 ++ o2), (a1 ++ a2), b2. split; [reflexivity|]. split; [exact T2|].
      split; [change (ms ++ [m] ++ sent l = (a1 ++ a2) ++ b2); rewrite app_assoc, E1, <- !app_assoc, E2; reflexivity|].
      split; [apply blocks_app; assumption|]. apply Forall_app. split; assumption.
    + destruct (flush_ok c s ms (proj1 CB) T) as (s1 & o1 & -> & T1 & _ & _ & _ & B1 & L1). cbn [bind].
      destruct (IH s1 [] T1 FR) as (s2 & o2 & a2 & b2 & -> & T2 & E2 & B2 & L2). cbn [bind].
      exists s2, (o1 ++ o2), (ms ++ a2), b2. split; [reflexivity|]. split; [exact T2|].
      split; [cbn [app] in E2; change (ms ++ sent l = (ms ++ a2) ++ b2); rewrite E2, app_assoc; reflexivity|].
      split; [apply blocks_app; assumption|]. apply Forall_app. split; assumption.
Qed.
Lemma tinv0 : forall c s, -2 <= d_bufsiz c -> d_tx s = [] -> d_txlen s = 0 -> tinv c s [].
Proof. intros c s H E L. constructor; rewrite ?E; auto. lia. Qed.

(** * The receiving side *)
Lemma recv_pending : forall f myc s inp m rest, d_rx s <> [] -> dap_decode (d_rx s) = Ok (m, rest) -> dm_type m <> 1 ->
  dap_recv f myc s inp = Ok (RMsg m, with_rx s rest, inp, []).
Proof.
  intros f myc s inp m rest NE D T. destruct f; cbn [dap_recv]; destruct (d_rx s) eqn:E; try congruence; rewrite D; cbn [bind];
  (destruct (dm_type m =? 1) eqn:X; [lia|reflexivity]).
Qed.
Lemma recv_next : forall f myc s b inp m rest, d_rx s = [] -> dap_decode b = Ok (m, rest) -> dm_type m <> 1 ->
  dap_recv f myc s (IData b :: inp) = Ok (RMsg m, with_rx s rest, inp, []).
Proof.
  intros f myc s b inp m rest NE D T. destruct f; cbn [dap_recv]; rewrite NE, D; cbn [bind];
  (destruct (dm_type m =? 1) eqn:X; [lia|reflexivity]).
Qed.
Lemma unpack_ne : forall buf m ms, unpack buf (m :: ms) -> buf <> [].
Proof. intros buf m ms U ->. inversion U. discriminate. Qed.
Lemma with_rx2 : forall s a b, with_rx (with_rx s a) b = with_rx s b.
Proof. reflexivity. Qed.
Lemma reads_rest : forall myc inp ms2, forall ms s buf, d_rx s = buf -> unpack buf ms -> Forall (fun m => dm_type m <> 1) ms ->
  (reads myc (with_rx s []) inp ms2 (with_rx s [])) -> reads myc s inp (ms ++ ms2) (with_rx s []).
Proof.
  intros myc inp ms2. induction ms as [|m ms IH]; intros s buf E U F R.
  - inversion U; subst. assert (s = with_rx s []) as ->; [|exact R]. destruct s as [x y z]; cbn [d_rx] in H; subst; reflexivity.
  - pose proof (unpack_ne _ _ _ U) as NE. inversion U as [|? ? rest ? D U2]; subst. inversion F; subst. cbn [app].
    eapply rd_msg with (f := O); [apply recv_pending; eassumption|].
    change (with_rx s []) with (with_rx (with_rx s rest) []). eapply IH; [reflexivity|exact U2|assumption|exact R].
Qed.
Lemma reads_blocks : forall myc ms os, blocks ms os -> Forall (fun m => dm_type m <> 1) ms -> forall s, d_rx s = [] ->
  reads myc s (map IData os) ms s.
Proof.
  intros myc ms os B. induction B as [|a b ms os NE BL B IH]; intros F s E.
  - cbn [map]. apply rd_wait with (f := O). cbn [dap_recv]. rewrite E. reflexivity.
  - apply Forall_app in F. destruct F as [FA FB]. cbn [map]. pose proof (unpack_blocked _ _ BL) as U.
    destruct a as [|m a]; [congruence|]. inversion U as [|? ? rest ? D U2]; subst. inversion FA; subst. cbn [app].
    eapply rd_msg with (f := O); [apply recv_next; eassumption|].
    assert (ES : s = with_rx (with_rx s rest) []) by (destruct s as [x y z]; cbn [d_rx] in E; subst; reflexivity).
    rewrite ES at 2. eapply reads_rest; [reflexivity|exact U2|assumption|]. rewrite <- ES. auto.
Qed.

(** ** C54, end to end: whatever the sequence of [send] and [flush] calls and
    whatever the peer supports, after a last [flush] the peer's [recv] calls
    return exactly the messages that were sent, in order, and then wait. *)
Theorem dap_stream : forall c s l peer myc, 0 < d_bufsiz c <= 65535 -> d_tx s = [] -> d_txlen s = 0 ->
  Forall (fun op => match op with Send m => sendable m /\ zlen (dm_body m) + 2 <= d_bufsiz c | Flush => True end) l ->
  d_rx peer = [] ->
  exists s' o, calls c s (l ++ [Flush]) = Ok (s', o) /\ d_tx s' = [] /\ reads myc peer (map IData o) (sent l) peer.
Proof.
  intros c s l peer myc CB E0 L0 F RX.
  assert (FF : Forall (fits c) l) by (eapply Forall_impl; [|exact F]; intros [m|] H; cbn [fits]; [destruct H as [[P _] S]; auto|exact I]).
  assert (T1 : Forall (fun m => dm_type m <> 1) (sent l)).
  { unfold sent. clear - F. induction F as [|op l H F IH]; cbn [flat_map]; [constructor|]. destruct op as [m|]; [|exact IH]. constructor; [apply H|exact IH]. }
  destruct (calls_ok c ltac:(lia) l s [] (tinv0 c s ltac:(lia) E0 L0) FF) as (s1 & o1 & a & b & EC & T & EQ & B1 & _).
  destruct (flush_ok c s1 b ltac:(lia) T) as (s2 & o2 & EF & T2 & TX & _ & _ & B2 & _).
  assert (EC2 : forall l s s1 o1, calls c s l = Ok (s1, o1) -> calls c s (l ++ [Flush]) = Ok (fst (dap_flush s1), o1 ++ snd (dap_flush s1))).
  { clear. induction l as [|op l IH]; intros s s1 o1 H; cbn [app calls] in *.
    - injection H as <- <-. destruct (dap_flush s) as [x y]. cbn [bind fst snd]. rewrite app_nil_r. reflexivity.
    - destruct (match op with Send m => dap_send c s m | Flush => Ok (dap_flush s) end) as [[s2 o2]|]; [|discriminate]. cbn [bind] in *.
      destruct (calls c s2 l) as [[s3 o3]|] eqn:C; [|discriminate]. cbn [bind] in *. injection H as <- <-. rewrite (IH _ _ _ C). cbn [bind]. rewrite app_assoc. reflexivity. }
  exists s2, (o1 ++ o2). rewrite (EC2 _ _ _ _ EC), EF. cbn [fst snd]. split; [reflexivity|]. split; [exact TX|].
  cbn [app] in EQ. rewrite EQ in *. apply reads_blocks; [apply blocks_app; assumption|exact T1|exact RX].
Qed.
Print Assumptions dap_stream.

(** Two messages of which the second is sent in another buffer, a third one
    too long for a one byte length. *)
Definition ex_cfg : dcfg := {| d_bufsiz := 300; d_blocking := true; d_len2 := true |}.
Definition ex_m (t : Z) (n : nat) : dmsg := {| dm_type := t; dm_sid := None; dm_bitcnt := None; dm_body := repeat 7 n |}.
Lemma ex_ok : forall t n, In t [1; 2; 3; 4; 5; 6; 7; 8; 9; 13; 14; 15] -> t <> 1 -> zlen (dm_body (ex_m t n)) + 2 <= d_bufsiz ex_cfg ->
  sendable (ex_m t n) /\ zlen (dm_body (ex_m t n)) + 2 <= d_bufsiz ex_cfg.
Proof. intros t n A B C. split; [split; [split; [exact A|split; reflexivity]|exact B]|exact C]. Qed.
Example dap_stream_ex : let l := [Send (ex_m 8 100); Send (ex_m 6 0); Send (ex_m 8 253); Send (ex_m 9 2)] in
  Forall (fun op => match op with Send m => sendable m /\ zlen (dm_body m) + 2 <= d_bufsiz ex_cfg | Flush => True end) l /\
  exists s o, calls ex_cfg sess0 (l ++ [Flush]) = Ok (s, o) /\ map zlen o = [106; 262].
Proof.
  cbv zeta. split.
  - repeat (apply Forall_cons; [first [exact I|apply ex_ok; [vm_compute; auto 15|discriminate|vm_compute; discriminate]]|]); apply Forall_nil.
  - eexists _, _. split; vm_compute; reflexivity.
Qed.

(** Until the flush, buffers hold whole messages in order, none exceeding the
    negotiated size by more than two bytes. *)
Theorem dap_buffers : forall c l, 0 < d_bufsiz c <= 65535 ->
  Forall (fun op => match op with Send m => plain_msg m /\ zlen (dm_body m) + 2 <= d_bufsiz c | Flush => True end) l ->
  exists s o done rest, calls c sess0 l = Ok (s, o) /\ sent l = done ++ rest /\ Forall (fun b => zlen b <= d_bufsiz c + 2) o /\
    unpack (concat (d_tx s)) rest /\ (exists groups, concat groups = done /\ Forall2 unpack o groups).
Proof.
  intros c l CB F. destruct (calls_ok c ltac:(lia) l sess0 [] (tinv0 c sess0 ltac:(lia) eq_refl eq_refl) F) as (s1 & o1 & a & b & EC & T & EQ & B1 & L).
  exists s1, o1, a, b. split; [exact EC|]. split; [exact EQ|]. split; [exact L|]. split; [apply unpack_blocked, blocked_counted; apply T|].
  clear - B1. induction B1 as [|a b ms os NE BL B (g & E & IH)]; [exists []; split; constructor|].
  exists (a :: g). cbn [concat]. split; [congruence|]. constructor; [apply unpack_blocked; exact BL|exact IH].
Qed.
Print Assumptions dap_buffers.

(** A stray configuration message between two others is answered, with
    pending messages sent before the answer, and not returned. *)
Theorem dap_stray_config : forall f myc s inp m0 m1 b, sendable m1 -> plain_msg m0 -> dm_type m0 = 1 -> d_tx s <> [] ->
  blocked [m0; m1] b -> d_rx s = [] ->
  exists s', dap_recv (S f) myc s (IData b :: inp) = Ok (RMsg m1, s', inp, [concat (d_tx s); myc]) /\ d_tx s' = [] /\ d_rx s' = [].
Proof.
  intros f myc s inp m0 m1 b [P1 N1] P0 T0 TX B RX. pose proof (unpack_blocked _ _ B) as U.
  inversion U as [|? ? r ? D0 U1]; subst. inversion U1 as [|? ? r1 ? D1 U2]; subst. inversion U2; subst.
  cbn [dap_recv]. rewrite RX, D0. cbn [bind]. rewrite T0. change (1 =? 1) with true. cbv beta iota zeta.
  unfold dap_flush. cbn [with_rx d_tx]. destruct (d_tx s) as [|x l] eqn:E; [congruence|].
  rewrite (recv_pending f myc _ inp m1 []); [|cbn [with_tx with_rx d_rx]; eapply unpack_ne; eassumption|exact D1|exact N1].
  cbn [bind app]. eexists. split; [reflexivity|]. split; reflexivity.
Qed.
Print Assumptions dap_stray_config.
Example dap_stray_ex : blocked [ex_m 1 3; ex_m 6 0] [1; 2; 3; 7; 7; 7; 6; 0].
Proof.
  change [1; 2; 3; 7; 7; 7; 6; 0] with ([1; 2; 3; 7; 7; 7] ++ [6; 0]).
  apply bl_cons; [split; [cbn [In ex_m dm_type]; auto|split; reflexivity]|apply (wl_short (ex_m 1 3)); reflexivity|].
  apply (bl_last (ex_m 6 0)). split; [cbn [In ex_m dm_type]; auto 15|split; reflexivity].
Qed.

(** * What does not hold *)
(** The header's optional stream id or bit count defeats the length field: the
    message takes in everything that follows. *)
Theorem dap_stream_id_refuted : exists m l b next, dm_sid m = Some 1 /\ dap_encode m l = Ok b /\ blocked [next] (without_length next) /\
  exists m', dap_decode (b ++ without_length next) = Ok (m', []) /\ dm_body m' = dm_body m ++ without_length next.
Proof.
  exists {| dm_type := 8; dm_sid := Some 1; dm_bitcnt := None; dm_body := [1; 2] |}, (L1 2), [8; 3; 1; 2; 1; 2], (ex_m 6 0).
  split; [reflexivity|]. split; [reflexivity|]. split; [constructor; split; [cbn [In ex_m dm_type]; auto 15|split; reflexivity]|].
  eexists. split; vm_compute; reflexivity.
Qed.
Print Assumptions dap_stream_id_refuted.

(** A truncated message is not a decode error but an assertion failure. *)
Theorem dap_truncated_refuted : dap_decode [8; 2; 5; 0] = Err EAssert.
Proof. reflexivity. Qed.
Print Assumptions dap_truncated_refuted.

(** The size check ignores the length field that is added: a buffer can exceed
    the size the peer announced. *)
Theorem dap_bufsiz_refuted : exists c l s o, 0 < d_bufsiz c <= 65535 /\
  Forall (fun op => match op with Send m => sendable m /\ zlen (dm_body m) + 2 <= d_bufsiz c | Flush => True end) l /\
  calls c sess0 l = Ok (s, o) /\ exists b, In b o /\ d_bufsiz c < zlen b.
Proof.
  exists ex_cfg, [Send (ex_m 8 298); Flush]. eexists _, _. split; [cbn; lia|]. split.
  - repeat (apply Forall_cons; [first [exact I|apply ex_ok; [vm_compute; auto 15|discriminate|vm_compute; discriminate]]|]); apply Forall_nil.
  - split; [vm_compute; reflexivity|]. eexists. split; [left; reflexivity|]. vm_compute. reflexivity.
Qed.
Print Assumptions dap_bufsiz_refuted.
