(** C39: the session control connect message. *)
From Verif Require Import Base PacketModel PacketProofs PacketSafe SessPktModel.

(** * Specification: what can be put into a connect message *)
Definition latin1 (l : list Z) : Prop := Forall (fun c => 0 <= c < 256) l.
Definition eu_ok (u : enduser) : Prop :=
  match u with
  | EU0 n => 1 <= n <= 255
  | EU1 nm => nm <> [] /\ zlen nm <= 16 /\ latin1 nm
  | EU2 g us nm => 0 <= g < 65536 /\ 0 <= us < 65536 /\ nm <> [] /\ zlen nm <= 16 /\ latin1 nm
  end.
Definition sci_ok (m : sci) : Prop :=
  eu_ok (sc_dst m) /\ eu_ok (sc_src m) /\
  0 <= sc_proxy m <= 1 /\ 0 <= sc_proxyuic m <= 1 /\ 0 <= sc_reserved m <= 1 /\ 0 <= sc_scver m <= 3 /\
  (zlen (sc_user m) <= 39 /\ latin1 (sc_user m)) /\ (zlen (sc_pass m) <= 39 /\ latin1 (sc_pass m)) /\
  (zlen (sc_acct m) <= 39 /\ latin1 (sc_acct m)) /\ (zlen (sc_data m) <= 16 /\ latin1 (sc_data m)).

(** * Lemmas *)
Lemma latin1_okb : forall l, latin1 l -> forallb byte_okb l = true.
Proof. intros l H. apply forallb_forall. intros x I0. unfold latin1 in H. rewrite Forall_forall in H. specialize (H x I0). unfold byte_okb. lia. Qed.
Lemma ascii_rt : forall m l rest, latin1 l -> zlen l <= m -> zlen l <= 255 ->
  ascii_enc m l = Ok (zlen l :: l) /\ image_dec m ((zlen l :: l) ++ rest) = Ok (l, rest).
Proof. intros m l rest A B C. unfold ascii_enc. rewrite (latin1_okb l A). apply image_enc_dec; assumption. Qed.
Lemma fixed1 : forall x r, fixed_dec 1 (x :: r) = Ok ([x], r).
Proof. intros. unfold fixed_dec, require. change (Z.of_nat 1) with 1. pose proof (zlen_nonneg _ r). rewrite zlen_cons. destruct (1 + zlen r <? 1) eqn:X; [lia|]. reflexivity. Qed.
Lemma fixed2 : forall x y r, fixed_dec 2 (x :: y :: r) = Ok ([x; y], r).
Proof. intros. unfold fixed_dec, require. change (Z.of_nat 2) with 2. pose proof (zlen_nonneg _ r). rewrite !zlen_cons. destruct (1 + (1 + zlen r) <? 2) eqn:X; [lia|]. reflexivity. Qed.
Lemma tb1 : forall v, 0 <= v < 256 -> to_bytes 1 v = Ok [v].
Proof. intros v H. unfold to_bytes. change (256 ^ Z.of_nat 1) with 256. replace ((0 <=? v) && (v <? 256)) with true by lia. cbn [le_enc]. rewrite Z.mod_small by lia. reflexivity. Qed.
Lemma tb2 : forall v, 0 <= v < 65536 -> to_bytes 2 v = Ok [v mod 256; v / 256] /\ le_dec [v mod 256; v / 256] = v.
Proof.
  intros v H. split.
  - unfold to_bytes. change (256 ^ Z.of_nat 2) with 65536. replace ((0 <=? v) && (v <? 65536)) with true by lia. cbn [le_enc]. rewrite (Z.mod_small (v / 256)) by lia. reflexivity.
  - cbn [le_dec]. lia.
Qed.
Lemma le1 : forall x, le_dec [x] = x.
Proof. intros. cbn [le_dec]. lia. Qed.

Lemma eu_round : forall u rest, eu_ok u -> exists b, eu_enc u = Ok b /\ eu_dec (b ++ rest) = Ok (u, rest).
Proof.
  intros [n|nm|g us nm] rest OK; cbn [eu_ok] in OK.
  - exists [0; n]. unfold eu_enc. rewrite tb1 by lia. split; [reflexivity|]. cbn [app]. unfold eu_dec. rewrite fixed1. cbn [bind]. rewrite le1.
    change ((0 =? 0) || (0 =? 1) || (0 =? 2)) with true. change (0 =? 0) with true. cbv beta iota zeta. rewrite fixed1. cbn [atfield bind]. rewrite le1.
    destruct (n =? 0) eqn:X; [lia|]. reflexivity.
  - destruct OK as (NE & L & LA). destruct (ascii_rt 16 nm rest LA L ltac:(lia)) as [E D].
    exists (1 :: 0 :: zlen nm :: nm). unfold eu_enc. rewrite E. split; [reflexivity|]. cbn [app] in *. unfold eu_dec. rewrite fixed1. cbn [bind]. rewrite le1.
    change ((1 =? 0) || (1 =? 1) || (1 =? 2)) with true. change (1 =? 0) with false. change (1 =? 1) with true. cbv beta iota zeta. rewrite fixed1. cbn [atfield bind]. rewrite le1.
    change (negb (0 =? 0)) with false. cbv beta iota zeta. rewrite D. cbn [atfield bind]. destruct nm; [congruence|reflexivity].
  - destruct OK as (HG & HU & NE & L & LA). destruct (ascii_rt 16 nm rest LA L ltac:(lia)) as [E D]. destruct (tb2 g HG) as [G1 G2]. destruct (tb2 us HU) as [U1 U2].
    exists (2 :: 0 :: g mod 256 :: g / 256 :: us mod 256 :: us / 256 :: zlen nm :: nm). unfold eu_enc. rewrite E, G1, U1. split; [reflexivity|]. cbn [app] in *. unfold eu_dec. rewrite fixed1. cbn [bind]. rewrite le1.
    change ((2 =? 0) || (2 =? 1) || (2 =? 2)) with true. change (2 =? 0) with false. change (2 =? 1) with false. cbv beta iota zeta. rewrite fixed1. cbn [atfield bind]. rewrite le1.
    change (negb (0 =? 0)) with false. cbv beta iota zeta. rewrite fixed2. cbn [atfield bind]. rewrite fixed2. cbn [atfield bind]. rewrite D. cbn [atfield bind]. rewrite G2, U2. destruct nm; [congruence|reflexivity].
Qed.
Lemma elt_ok : forall v b s, 0 <= b -> 0 <= v < 2 ^ b -> elt v b s = Ok (Z.shiftl v s).
Proof. intros v b s B H. unfold elt. rewrite Z.shiftr_div_pow2 by lia. rewrite Z.div_small by lia. reflexivity. Qed.
(** The flag byte, over its finitely many field values. *)
Definition flagbyte (a u px pu rs sv : Z) : Z :=
  Z.lor a (Z.lor (Z.shiftl u 1) (Z.lor (Z.shiftl px 2) (Z.lor (Z.shiftl pu 3) (Z.lor (Z.shiftl rs 4) (Z.shiftl sv 5))))).
Lemma flags_rt : forall a u px pu rs sv, 0 <= a <= 1 -> 0 <= u <= 1 -> 0 <= px <= 1 -> 0 <= pu <= 1 -> 0 <= rs <= 1 -> 0 <= sv <= 3 ->
  let f := flagbyte a u px pu rs sv in
  0 <= f < 256 /\ bits f 7 1 = 0 /\ bits f 0 1 = a /\ bits f 1 1 = u /\ bits f 2 1 = px /\ bits f 3 1 = pu /\ bits f 4 1 = rs /\ bits f 5 2 = sv.
Proof.
  intros a u px pu rs sv A U P Q R S0.
  assert (a = 0 \/ a = 1) as [-> | -> ] by lia; assert (u = 0 \/ u = 1) as [-> | -> ] by lia; assert (px = 0 \/ px = 1) as [-> | -> ] by lia;
  assert (pu = 0 \/ pu = 1) as [-> | -> ] by lia; assert (rs = 0 \/ rs = 1) as [-> | -> ] by lia; assert (sv = 0 \/ sv = 1 \/ sv = 2 \/ sv = 3) as [-> | [-> | [-> | -> ]]] by lia;
  vm_compute; repeat split; discriminate.
Qed.
Lemma b2z_r : forall b, 0 <= b2z b <= 1.
Proof. destruct b; cbn [b2z]; lia. Qed.

(** ** C39: every message within the limits decodes to what was encoded. *)
Theorem sci_round_trip : forall m, sci_ok m -> exists b, sci_enc m = Ok b /\ bytes_ok b /\ sci_dec b = Ok m.
Proof.
  intros m (OD & OS & P1 & P2 & P3 & P4 & (U1 & U2) & (W1 & W2) & (A1 & A2) & (D1 & D2)).
  unfold sci_enc.
  set (ac := if has_auth m then zlen (sc_user m) :: sc_user m ++ zlen (sc_pass m) :: sc_pass m ++ zlen (sc_acct m) :: sc_acct m else []).
  set (ud := if nonempty (sc_data m) then zlen (sc_data m) :: sc_data m else []).
  assert (EA : (if has_auth m then let* r := ascii_enc 39 (sc_user m) in let* p := ascii_enc 39 (sc_pass m) in let* a := ascii_enc 39 (sc_acct m) in Ok (r ++ p ++ a) else Ok []) = Ok ac).
  { unfold ac. destruct (has_auth m); [|reflexivity].
    rewrite (proj1 (ascii_rt 39 (sc_user m) [] U2 U1 ltac:(lia))), (proj1 (ascii_rt 39 (sc_pass m) [] W2 W1 ltac:(lia))), (proj1 (ascii_rt 39 (sc_acct m) [] A2 A1 ltac:(lia))). reflexivity. }
  assert (EU : (if nonempty (sc_data m) then image_enc 16 (sc_data m) else Ok []) = Ok ud).
  { unfold ud. destruct (nonempty (sc_data m)); [|reflexivity]. apply (proj1 (image_enc_dec 16 (sc_data m) [] D1 ltac:(lia))). }
  destruct (flags_rt (b2z (has_auth m)) (b2z (nonempty (sc_data m))) (sc_proxy m) (sc_proxyuic m) (sc_reserved m) (sc_scver m) (b2z_r _) (b2z_r _) P1 P2 P3 P4)
    as (F0 & F7 & FA & FU & FP & FQ & FR & FS).
  set (f := flagbyte _ _ _ _ _ _) in *.
  rewrite EA, EU. cbn [bind].
  destruct (eu_round (sc_src m) (f :: ac ++ ud) OS) as (bs & ES & DS).
  destruct (eu_round (sc_dst m) (bs ++ f :: ac ++ ud) OD) as (bd & ED & DD).
  rewrite ES, ED. cbn [bind]. rewrite !elt_ok by (change (2 ^ 1) with 2; change (2 ^ 2) with 4; lia). cbn [bind].
  change (Z.lor (b2z (has_auth m)) _) with f. rewrite tb1 by exact F0. cbn [bind].
  exists (bd ++ bs ++ [f] ++ ac ++ ud). split; [reflexivity|]. split.
  - assert (BA : forall k l, k <= 255 -> zlen l <= k -> latin1 l -> bytes_ok (zlen l :: l)).
    { intros k l HK HL L. constructor; [unfold byte_ok; pose proof (zlen_nonneg _ l); lia|exact L]. }
    assert (BE : forall u, eu_ok u -> forall b, eu_enc u = Ok b -> bytes_ok b).
    { intros [n|nm|g us nm] O b E; cbn [eu_ok eu_enc] in *.
      - rewrite tb1 in E by lia. injection E as <-. repeat constructor; unfold byte_ok; lia.
      - destruct O as (NE & L & LA). rewrite (proj1 (ascii_rt 16 nm [] LA L ltac:(lia))) in E. cbn [bind] in E. injection E as <-.
        constructor; [unfold byte_ok; lia|]. constructor; [unfold byte_ok; lia|]. apply (BA 16); [lia|lia|exact LA].
      - destruct O as (HG & HU & NE & L & LA). rewrite (proj1 (ascii_rt 16 nm [] LA L ltac:(lia))), (proj1 (tb2 g HG)), (proj1 (tb2 us HU)) in E. cbn [bind app] in E. injection E as <-.
        do 6 (constructor; [unfold byte_ok; lia|]). apply (BA 16); [lia|lia|exact LA]. }
    apply Forall_app; split; [exact (BE _ OD _ ED)|]. apply Forall_app; split; [exact (BE _ OS _ ES)|].
    cbn [app]. constructor; [exact F0|]. apply Forall_app; split.
    + unfold ac. destruct (has_auth m); [|constructor].
      change (bytes_ok ((zlen (sc_user m) :: sc_user m) ++ (zlen (sc_pass m) :: sc_pass m) ++ (zlen (sc_acct m) :: sc_acct m))).
      apply Forall_app; split; [apply (BA 39); [lia|lia|exact U2]|]. apply Forall_app; split; [apply (BA 39); [lia|lia|exact W2]|]. apply (BA 39); [lia|lia|exact A2].
    + unfold ud. destruct (nonempty (sc_data m)); [|constructor]. apply (BA 16); [lia|lia|exact D2].
  - unfold sci_dec. cbn [app]. rewrite DD. cbn [atfield bind]. rewrite DS. cbn [atfield bind]. rewrite fixed1. cbn [bind]. rewrite le1, F7.
    change (negb (0 =? 0)) with false. cbv beta iota zeta. rewrite FA, FU, FP, FQ, FR, FS.
    assert (NZ : forall b, negb (b2z b =? 0) = b) by (destruct b; reflexivity). rewrite !NZ.
    assert (UD : forall l, (match ud with [] => False | _ => True end) -> nonempty (sc_data m) = true -> image_dec 16 (ud ++ l) = Ok (sc_data m, l)).
    { intros l _ E. unfold ud. rewrite E. apply (proj2 (image_enc_dec 16 (sc_data m) l D1 ltac:(lia))). }
    assert (MK : forall u p a c, u = sc_user m -> p = sc_pass m -> a = sc_acct m -> c = sc_data m ->
      {| sc_dst := sc_dst m; sc_src := sc_src m; sc_proxy := sc_proxy m; sc_proxyuic := sc_proxyuic m; sc_reserved := sc_reserved m; sc_scver := sc_scver m; sc_user := u; sc_pass := p; sc_acct := a; sc_data := c |} = m).
    { intros u p a c -> -> -> ->. destruct m. reflexivity. }
    assert (ND : nonempty (sc_data m) = false -> sc_data m = []) by (destruct (sc_data m); [reflexivity|discriminate]).
    assert (NA : has_auth m = false -> sc_user m = [] /\ sc_pass m = [] /\ sc_acct m = []).
    { unfold has_auth. destruct (sc_user m), (sc_pass m), (sc_acct m); cbn [nonempty orb]; try discriminate; auto. }
    destruct (has_auth m) eqn:HA.
    + unfold ac. cbn [app]. cbv beta iota.
      change ((zlen (sc_user m) :: (sc_user m ++ zlen (sc_pass m) :: sc_pass m ++ zlen (sc_acct m) :: sc_acct m) ++ ud)) with
        ((zlen (sc_user m) :: (sc_user m ++ ((zlen (sc_pass m) :: sc_pass m) ++ (zlen (sc_acct m) :: sc_acct m)))) ++ ud).
      replace ((zlen (sc_user m) :: (sc_user m ++ ((zlen (sc_pass m) :: sc_pass m) ++ (zlen (sc_acct m) :: sc_acct m)))) ++ ud)
        with ((zlen (sc_user m) :: sc_user m) ++ ((zlen (sc_pass m) :: sc_pass m) ++ ((zlen (sc_acct m) :: sc_acct m) ++ ud)))
        by (cbn [app]; f_equal; rewrite <- !app_assoc; cbn [app]; rewrite <- !app_assoc; reflexivity).
      rewrite (proj2 (image_enc_dec 39 (sc_user m) _ U1 ltac:(lia))). cbn [bind].
      rewrite (proj2 (image_enc_dec 39 (sc_pass m) _ W1 ltac:(lia))). cbn [bind].
      rewrite (proj2 (image_enc_dec 39 (sc_acct m) _ A1 ltac:(lia))). cbn [bind].
      destruct (nonempty (sc_data m)) eqn:HD.
      * rewrite <- (app_nil_r ud), UD; [|unfold ud; rewrite ?HD; exact I|reflexivity]. cbn [bind]. rewrite MK by reflexivity. reflexivity.
      * cbn [bind]. rewrite MK by auto using eq_sym. reflexivity.
    + destruct (NA eq_refl) as (NU & NP & NC). unfold ac. cbn [app]. destruct (nonempty (sc_data m)) eqn:HD.
      * unfold ud. cbv beta iota. cbn [bind]. rewrite <- (app_nil_r (zlen (sc_data m) :: sc_data m)), (proj2 (image_enc_dec 16 (sc_data m) [] D1 ltac:(lia))). cbn [bind]. rewrite MK by auto using eq_sym. reflexivity.
      * unfold ud. cbn [orb]. rewrite MK by auto using eq_sym. reflexivity.
Qed.
Print Assumptions sci_round_trip.

Definition ex_sci : sci := {| sc_dst := EU0 19; sc_src := EU2 3 258 [80; 75]; sc_proxy := 1; sc_proxyuic := 0; sc_reserved := 0; sc_scver := 1;
  sc_user := [97; 98]; sc_pass := []; sc_acct := [255]; sc_data := [1; 2; 3] |}.
Example sci_ex : sci_ok ex_sci /\ sci_enc ex_sci = Ok [0; 19; 2; 0; 3; 0; 2; 1; 2; 80; 75; 39; 2; 97; 98; 0; 1; 255; 3; 1; 2; 3].
Proof.
  split; [|reflexivity]. unfold sci_ok, ex_sci, eu_ok, latin1, zlen. cbn. repeat split; try lia; try discriminate; repeat constructor; lia.
Qed.

(** * Malformed messages *)
Lemma image_res : forall m buf, (exists l r, image_dec m buf = Ok (l, r) /\ zlen l <= m /\ (bytes_ok buf -> bytes_ok l /\ bytes_ok r)) \/ image_dec m buf = Err EDecode.
Proof.
  intros m [|x t]; cbn [image_dec]; [right; reflexivity|]. destruct (m <? x) eqn:A; [right; reflexivity|].
  destruct (zlen (upto x t) =? x) eqn:B; [|right; reflexivity]. left. exists (upto x t), (from x t). split; [reflexivity|]. split; [lia|].
  intros H. inversion H as [|? ? _ HT]; subst. rewrite <- (upto_from _ x t) in HT. apply Forall_app in HT. exact HT.
Qed.
Lemma fixed_res : forall n buf, (exists h r, fixed_dec n buf = Ok (h, r) /\ zlen h = Z.of_nat n /\ (bytes_ok buf -> bytes_ok h /\ bytes_ok r)) \/ fixed_dec n buf = Err EDecode.
Proof.
  intros n buf. unfold fixed_dec, require. destruct (zlen buf <? Z.of_nat n) eqn:X; [right; reflexivity|]. left. cbn [bind].
  exists (upto (Z.of_nat n) buf), (from (Z.of_nat n) buf). split; [reflexivity|]. split; [rewrite zlen_upto; lia|].
  intros H. rewrite <- (upto_from _ (Z.of_nat n) buf) in H. apply Forall_app in H. exact H.
Qed.
Lemma le_dec_lim : forall h n, bytes_ok h -> zlen h = n -> 0 <= le_dec h < 256 ^ n.
Proof. intros h n B E. pose proof (le_dec_range h B) as R. unfold zlen in E. rewrite <- E. exact R. Qed.
Lemma eu_res : forall buf, bytes_ok buf -> (exists u r, eu_dec buf = Ok (u, r) /\ eu_ok u /\ bytes_ok r) \/ eu_dec buf = Err EDecode.
Proof.
  intros buf OK. unfold eu_dec.
  destruct (fixed_res 1 buf) as [(h & r & -> & ZH & BH)| -> ]; [|right; reflexivity]. cbn [bind]. destruct (BH OK) as [BH1 BR]. clear BH.
  destruct ((le_dec h =? 0) || (le_dec h =? 1) || (le_dec h =? 2)) eqn:FM; [|right; reflexivity].
  destruct (fixed_res 1 r) as [(nb & r2 & -> & ZN & BN)| -> ]; [|right; reflexivity]. cbn [atfield bind]. destruct (BN BR) as [BN1 BR2]. clear BN.
  pose proof (le_dec_lim nb 1 BN1 ZN) as RN. change (256 ^ 1) with 256 in RN.
  destruct (le_dec h =? 0) eqn:F0.
  { destruct (le_dec nb =? 0) eqn:N0; [right; reflexivity|]. left. eexists _, _. split; [reflexivity|]. split; [cbn [eu_ok]; lia|exact BR2]. }
  destruct (negb (le_dec nb =? 0)); [right; reflexivity|].
  destruct (le_dec h =? 1) eqn:F1.
  { destruct (image_res 16 r2) as [(nm & r3 & -> & LN & B3)| -> ]; [|right; reflexivity]. cbn [atfield bind]. destruct (B3 BR2) as [B4 B5].
    destruct nm as [|x nm]; [right; reflexivity|]. left. eexists _, _. split; [reflexivity|]. split; [|exact B5]. cbn [eu_ok]. split; [discriminate|]. split; [exact LN|exact B4]. }
  destruct (fixed_res 2 r2) as [(g & r3 & -> & ZG & BG)| -> ]; [|right; reflexivity]. cbn [atfield bind]. destruct (BG BR2) as [BG1 BR3].
  destruct (fixed_res 2 r3) as [(us & r4 & -> & ZU & BU)| -> ]; [|right; reflexivity]. cbn [atfield bind]. destruct (BU BR3) as [BU1 BR4].
  destruct (image_res 16 r4) as [(nm & r5 & -> & LN & B3)| -> ]; [|right; reflexivity]. cbn [atfield bind]. destruct (B3 BR4) as [B4 B5].
  destruct nm as [|x nm]; [right; reflexivity|]. left. eexists _, _. split; [reflexivity|]. split; [|exact B5]. cbn [eu_ok].
  pose proof (le_dec_lim g 2 BG1 ZG) as RG. pose proof (le_dec_lim us 2 BU1 ZU) as RU. change (256 ^ 2) with 65536 in *.
  split; [exact RG|]. split; [exact RU|]. split; [discriminate|]. split; [exact LN|exact B4].
Qed.
Lemma bits_r : forall f s n k, 0 <= n -> k = 2 ^ n - 1 -> 0 <= bits f s n <= k.
Proof. intros f s n k H ->. unfold bits. rewrite Z.land_ones by lia. pose proof (Z.mod_pos_bound (Z.shiftr f s) (2 ^ n) ltac:(apply Z.pow_pos_nonneg; lia)). lia. Qed.
Lemma nilok : zlen ([] : list Z) <= 0 /\ latin1 [].
Proof. split; [reflexivity|constructor]. Qed.

(** Whatever bytes arrive, decoding either gives a message within the limits
    or a decode error; no other exception occurs. *)
Theorem sci_decode_safe : forall buf, bytes_ok buf -> (exists m, sci_dec buf = Ok m /\ sci_ok m) \/ sci_dec buf = Err EDecode.
Proof.
  intros buf OK. unfold sci_dec.
  destruct (eu_res buf OK) as [(d & r & -> & OD & B1)| -> ]; [|right; reflexivity]. cbn [atfield bind].
  destruct (eu_res r B1) as [(s & r2 & -> & OS & B2)| -> ]; [|right; reflexivity]. cbn [atfield bind].
  destruct (fixed_res 1 r2) as [(fb & pay & -> & ZF & BF)| -> ]; [|right; reflexivity]. cbn [bind]. destruct (BF B2) as [_ BP].
  set (f := le_dec fb). destruct (negb (bits f 7 1 =? 0)); [right; reflexivity|].
  destruct nilok as [NL1 NL2].
  assert (MK : forall u p a c, zlen u <= 39 /\ latin1 u -> zlen p <= 39 /\ latin1 p -> zlen a <= 39 /\ latin1 a -> zlen c <= 16 /\ latin1 c ->
    sci_ok {| sc_dst := d; sc_src := s; sc_proxy := bits f 2 1; sc_proxyuic := bits f 3 1; sc_reserved := bits f 4 1; sc_scver := bits f 5 2; sc_user := u; sc_pass := p; sc_acct := a; sc_data := c |}).
  { intros u p a c HU HP HA HC. unfold sci_ok. cbn [sc_dst sc_src sc_proxy sc_proxyuic sc_reserved sc_scver sc_user sc_pass sc_acct sc_data].
    split; [exact OD|]. split; [exact OS|]. split; [apply bits_r; [lia|reflexivity]|]. split; [apply bits_r; [lia|reflexivity]|]. split; [apply bits_r; [lia|reflexivity]|].
    split; [apply bits_r; [lia|reflexivity]|]. auto. }
  assert (NIL39 : zlen ([] : list Z) <= 39 /\ latin1 []) by (split; [lia|exact NL2]).
  assert (NIL16 : zlen ([] : list Z) <= 16 /\ latin1 []) by (split; [lia|exact NL2]).
  destruct pay as [|x pay]; [destruct (negb (bits f 0 1 =? 0) || negb (bits f 1 1 =? 0)); [right; reflexivity|left; eexists; split; [reflexivity|apply MK; assumption]]|].
  set (py := x :: pay) in *. clearbody py.
  assert (LAST : forall u p a r, zlen u <= 39 /\ latin1 u -> zlen p <= 39 /\ latin1 p -> zlen a <= 39 /\ latin1 a -> bytes_ok r ->
    let fin := (let* (c, r) := (if negb (bits f 1 1 =? 0) then image_dec 16 r else Ok ([], r)) in
      Ok {| sc_dst := d; sc_src := s; sc_proxy := bits f 2 1; sc_proxyuic := bits f 3 1; sc_reserved := bits f 4 1; sc_scver := bits f 5 2; sc_user := u; sc_pass := p; sc_acct := a; sc_data := c |}) in
    (exists m, fin = Ok m /\ sci_ok m) \/ fin = Err EDecode).
  { intros u p a r0 HU HP HA HR. cbv zeta. destruct (negb (bits f 1 1 =? 0)).
    - destruct (image_res 16 r0) as [(c & r1 & -> & LC & BC)| -> ]; [|right; reflexivity]. cbn [bind]. left. eexists. split; [reflexivity|]. apply MK; auto. split; [exact LC|apply (BC HR)].
    - cbn [bind]. left. eexists. split; [reflexivity|]. apply MK; auto. }
  destruct (negb (bits f 0 1 =? 0)).
  - destruct (image_res 39 py) as [(u & r3 & -> & LU & BU)| -> ]; [|right; reflexivity]. cbn [bind]. destruct (BU BP) as [BU1 BU2].
    destruct (image_res 39 r3) as [(p & r4 & -> & LP & BPP)| -> ]; [|right; reflexivity]. cbn [bind]. destruct (BPP BU2) as [BP1 BP2].
    destruct (image_res 39 r4) as [(a & r5 & -> & LA & BA)| -> ]; [|right; reflexivity]. cbn [bind]. destruct (BA BP2) as [BA1 BA2].
    apply LAST; [split; [exact LU|exact BU1]|split; [exact LP|exact BP1]|split; [exact LA|exact BA1]|exact BA2].
  - cbn [bind]. apply LAST; auto.
Qed.
Print Assumptions sci_decode_safe.
Example sci_bad_ex : sci_dec [1; 1; 1; 65; 0; 19; 0] = Err EDecode /\ sci_dec [0; 25; 0; 19; 1] = Err EDecode.
Proof. split; reflexivity. Qed.

(** Nothing is cut to fit: text that is too long, or not Latin-1, makes
    encoding fail. *)
Theorem sci_not_truncated : forall m b, sci_enc m = Ok b ->
  zlen (sc_data m) <= 16 /\
  Forall (fun t => zlen t <= 39 /\ latin1 t) [sc_user m; sc_pass m; sc_acct m] /\
  Forall (fun u => match u with EU0 n => 0 <= n <= 255 | EU1 nm | EU2 _ _ nm => zlen nm <= 16 /\ latin1 nm end) [sc_dst m; sc_src m].
Proof.
  intros m b H. unfold sci_enc in H.
  assert (AE : forall k l x, ascii_enc k l = Ok x -> zlen l <= k /\ latin1 l).
  { intros k l x E. unfold ascii_enc, image_enc in E. destruct (forallb byte_okb l) eqn:F; [|discriminate]. destruct (k <? zlen l) eqn:L; [discriminate|]. split; [lia|].
    rewrite forallb_forall in F. apply Forall_forall. intros c I0. specialize (F c I0). unfold byte_okb in F. lia. }
  assert (EE : forall u x, eu_enc u = Ok x -> match u with EU0 n => 0 <= n <= 255 | EU1 nm | EU2 _ _ nm => zlen nm <= 16 /\ latin1 nm end).
  { intros [n|nm|g us nm] x E; cbn [eu_enc] in E.
    - unfold to_bytes in E. change (256 ^ Z.of_nat 1) with 256 in E. destruct ((0 <=? n) && (n <? 256)) eqn:R; [lia|discriminate].
    - destruct (ascii_enc 16 nm) eqn:A; [|discriminate]. eapply AE; eassumption.
    - destruct (to_bytes 2 g); [|discriminate]. destruct (to_bytes 2 us); [|discriminate]. cbn [bind] in E. destruct (ascii_enc 16 nm) eqn:A; [|discriminate]. eapply AE; eassumption. }
  destruct (if has_auth m then _ else _) as [ac|] eqn:HA; [|discriminate]. cbn [bind] in H.
  destruct (if nonempty (sc_data m) then image_enc 16 (sc_data m) else Ok []) as [ud|] eqn:HD; [|discriminate]. cbn [bind] in H.
  destruct (eu_enc (sc_dst m)) as [d|] eqn:ED; [|discriminate]. cbn [bind] in H.
  destruct (eu_enc (sc_src m)) as [s|] eqn:ES; [|discriminate]. clear H. split; [|split].
  - destruct (sc_data m) as [|x t] eqn:E; [unfold zlen; cbn; lia|]. cbn [nonempty] in HD. unfold image_enc in HD. destruct (16 <? zlen (x :: t)) eqn:L; [discriminate|lia].
  - destruct (has_auth m) eqn:A.
    + destruct (ascii_enc 39 (sc_user m)) eqn:A1; [|discriminate]. cbn [bind] in HA. destruct (ascii_enc 39 (sc_pass m)) eqn:A2; [|discriminate]. cbn [bind] in HA.
      destruct (ascii_enc 39 (sc_acct m)) eqn:A3; [|discriminate]. repeat constructor; eapply AE; eassumption.
    + unfold has_auth in A. destruct (sc_user m), (sc_pass m), (sc_acct m); try discriminate. repeat constructor; unfold zlen; cbn; lia.
  - constructor; [eapply EE; eassumption|]. constructor; [eapply EE; eassumption|constructor].
Qed.
Print Assumptions sci_not_truncated.

(** Nor are the flag fields: a value that does not fit its field makes encoding
    fail as a whole. *)
Definition no_flags (m : sci) : sci :=
  {| sc_dst := sc_dst m; sc_src := sc_src m; sc_proxy := 0; sc_proxyuic := 0; sc_reserved := 0; sc_scver := 0; sc_user := sc_user m; sc_pass := sc_pass m; sc_acct := sc_acct m; sc_data := sc_data m |}.
Lemma elt_bad : forall v n s, 0 <= n -> ~ 0 <= v < 2 ^ n -> elt v n s = Err EDecode.
Proof.
  intros v n s N H. unfold elt. rewrite Z.shiftr_div_pow2 by lia. assert (P : 0 < 2 ^ n) by (apply Z.pow_pos_nonneg; lia). pose proof (Z.div_mod v (2 ^ n) ltac:(lia)) as D. pose proof (Z.mod_pos_bound v (2 ^ n) P) as B.
  destruct (v / 2 ^ n =? 0) eqn:E; [|reflexivity]. apply Z.eqb_eq in E. rewrite E in D. lia.
Qed.
Theorem sci_flags_fit : forall m b, sci_enc (no_flags m) = Ok b ->
  ~ (0 <= sc_proxy m <= 1 /\ 0 <= sc_proxyuic m <= 1 /\ 0 <= sc_reserved m <= 1 /\ 0 <= sc_scver m <= 3) -> sci_enc m = Err EDecode.
Proof.
  intros m b H N. unfold sci_enc in *. change (has_auth (no_flags m)) with (has_auth m) in H. cbn [no_flags sc_dst sc_src sc_user sc_pass sc_acct sc_data] in H.
  destruct (if has_auth m then _ else _) as [ac|]; [|discriminate H]. cbn [bind] in *. destruct (if nonempty (sc_data m) then _ else _) as [ud|]; [|discriminate H]. cbn [bind] in *.
  destruct (eu_enc (sc_dst m)) as [d|]; [|discriminate H]. cbn [bind] in *. destruct (eu_enc (sc_src m)) as [s|]; [|discriminate H]. cbn [bind] in *. clear H.
  assert (C : forall v n s, 0 <= n -> (0 <= v < 2 ^ n /\ elt v n s = Ok (Z.shiftl v s)) \/ (~ 0 <= v < 2 ^ n /\ elt v n s = Err EDecode)).
  { intros v n t B. destruct (Z_lt_dec v 0); [right; split; [lia|apply elt_bad; lia]|]. destruct (Z_lt_dec v (2 ^ n)); [left|right]; (split; [lia|]); [apply elt_ok; lia|apply elt_bad; lia]. }
  destruct (C (sc_proxy m) 1 2 ltac:(lia)) as [[F1 E1]|[F1 E1]]; rewrite E1; cbn [bind]; [|reflexivity].
  destruct (C (sc_proxyuic m) 1 3 ltac:(lia)) as [[F2 E2]|[F2 E2]]; rewrite E2; cbn [bind]; [|reflexivity].
  destruct (C (sc_reserved m) 1 4 ltac:(lia)) as [[F3 E3]|[F3 E3]]; rewrite E3; cbn [bind]; [|reflexivity].
  destruct (C (sc_scver m) 2 5 ltac:(lia)) as [[F4 E4]|[F4 E4]]; rewrite E4; cbn [bind]; [|reflexivity].
  exfalso. change (2 ^ 1) with 2 in *. change (2 ^ 2) with 4 in *. lia.
Qed.
Print Assumptions sci_flags_fit.
Example sci_flags_ex : exists b, sci_enc (no_flags {| sc_dst := EU0 17; sc_src := EU0 1; sc_proxy := 0; sc_proxyuic := 0; sc_reserved := 2; sc_scver := 0; sc_user := []; sc_pass := []; sc_acct := []; sc_data := [] |}) = Ok b.
Proof. eexists. vm_compute. reflexivity. Qed.

(** An end user with an empty name or number 0 can be encoded but is refused
    by the receiver; so is, on the other side, a flagged but absent field. *)
Theorem sci_empty_name_refuted : exists m b, sci_enc m = Ok b /\ sc_dst m = EU1 [] /\ sci_dec b = Err EDecode.
Proof.
  eexists {| sc_dst := EU1 []; sc_src := EU0 1; sc_proxy := 0; sc_proxyuic := 0; sc_reserved := 0; sc_scver := 0; sc_user := []; sc_pass := []; sc_acct := []; sc_data := [] |}, _.
  split; [vm_compute; reflexivity|]. split; [reflexivity|]. vm_compute. reflexivity.
Qed.
Print Assumptions sci_empty_name_refuted.
