From Verif Require Import Base PacketModel PacketSpec PacketProofs.

Scheme ty_mut := Induction for ty Sort Prop
  with row_mut := Induction for row Sort Prop
  with rows_mut := Induction for rows Sort Prop
  with codes_mut := Induction for codes Sort Prop.
Combined Scheme layout_mut from ty_mut, row_mut, rows_mut, codes_mut.

Definition round_ty (t : ty) : Prop := wf_ty t -> forall v, val_ok t v ->
  exists b, enc_ty t v = Ok b /\ bytes_ok b /\ zlen b = wlen_ty t v /\
    (solid_ty t = true -> b <> []) /\
    forall rest, (final_ty t = true -> rest = []) ->
      exists v', dec_ty t (b ++ rest) = Ok (v', rest) /\ veq t v v'.

Definition frame (ns : list name) (a a' : attrs) : Prop :=
  forall n, ~ In n ns -> get a' n = get a n.
Definition fresh (ns : list name) (a : attrs) : Prop :=
  forall n, In n ns -> get a n = None.

Definition solid_row (x : row) : bool :=
  match x with
  | RSimple ty _ _ => solid_ty ty
  | RBM n _ | RRES n => (0 <? n)%nat
  | RTLV _ _ _ _ => false
  end.

Definition round_row (r : row) : Prop := wf_row r -> NoDup (names_row r) ->
  forall a, row_ok r a ->
  exists b, enc_row r a = Ok b /\ bytes_ok b /\ zlen b = wlen_row r a /\
    (solid_row r = true -> b <> []) /\
    forall tol a0 rest, (final_row r = true -> rest = []) -> fresh (names_row r) a0 ->
      exists a', dec_rowx tol r a0 (b ++ rest) = Ok (a', rest) /\
        agree_row r a a' /\ frame (names_row r) a0 a'.

Definition round_rows (r : rows) : Prop := wf_rows r -> NoDup (names_rows r) ->
  forall a, rows_ok r a ->
  exists b, enc_rows r a = Ok b /\ bytes_ok b /\ zlen b = wlen_rows r a /\
    (solid_rows r = true -> b <> []) /\
    forall tol a0 rest, (final_rows r = true -> rest = []) -> fresh (names_rows r) a0 ->
      exists a', dec_rows tol r a0 (b ++ rest) = Ok (a', rest) /\
        agree_rows r a a' /\ frame (names_rows r) a0 a'.

Fixpoint in_codes (k : Z) (r : row) (cs : codes) : Prop :=
  match cs with cnil => False | ccons k' r' t => (k = k' /\ r = r') \/ in_codes k r t end.

Definition round_codes (cs : codes) : Prop := forall tlen llen, (1 <= tlen + llen)%nat ->
  wf_codes cs -> NoDup (names_codes cs) ->
  (forall k, In k (tags cs) -> 0 <= k < 256 ^ Z.of_nat tlen) ->
  forall a, codes_ok llen cs a ->
  exists b, enc_codes tlen llen cs a = Ok b /\ bytes_ok b /\ zlen b = wlen_codes tlen llen cs a /\
    forall tol wild look a0 fuel, (length b <= fuel)%nat ->
      (forall k r, in_codes k r cs -> look k = Some (dec_rowx tol r)) ->
      fresh (names_codes cs) a0 ->
      exists a', tlv_loop fuel tol wild tlen llen look a0 b = Ok a' /\
        agree_codes cs a a' /\ frame (names_codes cs) a0 a'.

(** *** Lists *)
Lemma list_round : forall t, round_ty t -> wf_ty t -> final_ty t = false ->
  forall l, Forall (val_ok t) l ->
  exists b, concat_res (enc_ty t) l = Ok b /\ bytes_ok b /\
    zlen b = fold_right (fun v n => wlen_ty t v + n) 0 l /\
    (forall rest, exists l', list_n (length l) (dec_ty t) (b ++ rest) = Ok (l', rest) /\
                             Forall2 (veq t) l l') /\
    (solid_ty t = true -> forall f, (length b <= f)%nat ->
       exists l', list_all f (dec_ty t) b = Ok (l', []) /\ Forall2 (veq t) l l').
Proof.
  intros t R W NF. induction l as [|v l IH]; intros V.
  - exists []. cbn. repeat split; auto; try constructor; intros.
    + exists []. auto.
    + exists []. destruct f; auto.
  - inversion V; subst. destruct (IH H2) as (b & E & B & L & N & A).
    destruct (R W v H1) as (b0 & E0 & B0 & L0 & S0 & D0).
    exists (b0 ++ b). cbn [concat_res]. rewrite E0. cbn [bind].
    change ((fix go (l : list val) : res (list Z) :=
               match l with [] => Ok [] | v0 :: t0 => let* b1 := enc_ty t v0 in let* r := go t0 in Ok (b1 ++ r) end) l)
      with (concat_res (enc_ty t) l). rewrite E. cbn [bind].
    split; auto. split; [apply bytes_ok_app; auto|]. split.
    { rewrite zlen_app. cbn [fold_right]. lia. }
    split.
    + intros rest. destruct (D0 (b ++ rest)) as (v' & D & Q); [congruence|].
      destruct (N rest) as (l' & D2 & Q2). exists (v' :: l').
      cbn [length list_n]. rewrite <- app_assoc, D. cbn [bind]. rewrite D2. cbn [bind]. auto.
    + intros S f Hf. rewrite app_length in Hf. specialize (S0 S).
      destruct b0 as [|x b0]; [congruence|]. destruct f as [|f]; [cbn in Hf; lia|].
      destruct (D0 b) as (v' & D & Q); [congruence|].
      destruct (A S f) as (l' & D2 & Q2); [cbn in Hf; lia|].
      exists (v' :: l'). cbn [app list_all]. cbn [app] in D. rewrite D. cbn [bind].
      rewrite D2. cbn [bind]. auto.
Qed.

(** *** Agreement depends only on the named attributes *)
Lemma agree_frame :
  (forall t : ty, True) /\
  (forall r a a' a'', (forall n, In n (names_row r) -> get a'' n = get a' n) ->
     agree_row r a a' -> agree_row r a a'') /\
  (forall r a a' a'', (forall n, In n (names_rows r) -> get a'' n = get a' n) ->
     agree_rows r a a' -> agree_rows r a a'') /\
  (forall cs a a' a'', (forall n, In n (names_codes cs) -> get a'' n = get a' n) ->
     agree_codes cs a a' -> agree_codes cs a a'').
Proof.
  apply layout_mut; auto.
  - intros t _ n c a a' a'' H A. destruct c; cbn in *; auto.
    rewrite (H n) by auto. auto.
  - intros flen els a a' a'' H A e He Hc. cbn in A. rewrite H.
    + apply A; auto.
    + cbn. apply in_flat_map. exists e. rewrite Hc. cbn. auto.
  - intros r IHr t IHt a a' a'' H [A1 A2]. cbn [names_rows] in H. split.
    + apply (IHr a a' a''); [|exact A1]. intros. apply H. apply in_or_app. auto.
    + apply (IHt a a' a''); [|exact A2]. intros. apply H. apply in_or_app. auto.
  - intros k r IHr t IHt a a' a'' H [A1 A2]. cbn [names_codes] in H. split.
    + apply (IHr a a' a''); [|exact A1]. intros. apply H. apply in_or_app. auto.
    + apply (IHt a a' a''); [|exact A2]. intros. apply H. apply in_or_app. auto.
Qed.
Definition agree_row_frame := proj1 (proj2 agree_frame).
Definition agree_rows_frame := proj1 (proj2 (proj2 agree_frame)).
Definition agree_codes_frame := proj2 (proj2 (proj2 agree_frame)).

(** A constant in a packet is encoded and accepted. *)
Lemma simple_round : forall t n c, round_ty t -> wf_ty t -> const_flat c ->
  forall a v, getattr a n c = Some v -> val_ok t v ->
  exists b, enc_ty t v = Ok b /\ bytes_ok b /\ zlen b = wlen_ty t v /\
    (solid_ty t = true -> b <> []) /\
    forall tol a0 rest, (final_ty t = true -> rest = []) ->
      exists a', dec_rowx tol (RSimple t n c) a0 (b ++ rest) = Ok (a', rest) /\
        agree_row (RSimple t n c) a a' /\ frame (name_of n c) a0 a'.
Proof.
  intros t n c R W F a v G V. destruct (R W v V) as (b & E & B & L & S & D).
  exists b. repeat split; auto. intros tol a0 rest Hr.
  destruct (D rest Hr) as (v' & D1 & Q). cbn [dec_rowx]. rewrite D1. cbn [bind].
  destruct (setattr_ok a0 n c v' F) as (a' & E' & G' & K').
  { destruct c as [|k|k]; auto; cbn in G; injection G as G; subst k; cbn [const_flat] in F;
    (destruct t; cbn [veq val_ok] in Q, V; try congruence; destruct v; tauto). }
  exists a'. rewrite E'. cbn [bind]. split; auto. split; auto.
  destruct c; cbn; auto. cbn in G. rewrite G. rewrite G' by auto. auto.
Qed.

Theorem round_all : (forall t, round_ty t) /\ (forall r, round_row r) /\
  (forall r, round_rows r) /\ (forall cs, round_codes cs).
Proof.
  apply layout_mut.
  - (* B *) intros n W v V. destruct v; cbn in V; try contradiction.
    exists (le_enc n z). cbn [enc_ty wlen_ty]. rewrite to_bytes_ok by auto.
    rewrite zlen_le_enc. repeat split; auto using le_enc_bytes.
    + intros S X. cbn [solid_ty solid_row] in S. apply (f_equal (@length Z)) in X. rewrite le_enc_length in X. cbn [length] in X. lia.
    + intros rest _. exists (VInt z). cbn [dec_ty]. rewrite fixed_dec_ok by apply le_enc_length.
      cbn [bind]. rewrite le_dec_enc by auto. cbn. auto.
  - (* SIGNED *) intros n W v V. destruct v; cbn in V; try contradiction. cbn in W.
    destruct (signed_round n z W V) as [E D].
    exists (le_enc n (z mod 256 ^ Z.of_nat n)). cbn [enc_ty wlen_ty]. rewrite E.
    rewrite zlen_le_enc. repeat split; auto using le_enc_bytes.
    + intros S X. cbn [solid_ty solid_row] in S. apply (f_equal (@length Z)) in X. rewrite le_enc_length in X. cbn [length] in X. lia.
    + intros rest _. exists (VInt z). cbn [dec_ty]. rewrite fixed_dec_ok by apply le_enc_length.
      cbn [bind]. rewrite D. cbn. auto.
  - (* CTR *) intros n W v V. destruct v; cbn in V; try contradiction. cbn in W.
    exists (le_enc n z). cbn [enc_ty wlen_ty]. unfold ctr_enc, maxint.
    destruct (Nat.leb_spec n 8); [|lia]. cbn [bind].
    rewrite pow_256_2 in V. destruct (Z.leb_spec z (2 ^ (8 * Z.of_nat n) - 1)); [|lia].
    rewrite <- pow_256_2 in V. rewrite to_bytes_ok by auto.
    rewrite zlen_le_enc. repeat split; auto using le_enc_bytes.
    + intros S X. cbn [solid_ty solid_row] in S. apply (f_equal (@length Z)) in X. rewrite le_enc_length in X. cbn [length] in X. lia.
    + intros rest _. exists (VInt z). cbn [dec_ty]. rewrite fixed_dec_ok by apply le_enc_length.
      cbn [bind]. rewrite le_dec_enc by auto. cbn. auto.
  - (* I *) intros m W v V. destruct v; cbn in V; try contradiction. destruct V as (V1 & V2 & V3).
    destruct (image_enc_dec m l [] V2 V3) as [E _].
    exists (zlen l :: l). cbn [enc_ty wlen_ty]. rewrite E. rewrite zlen_cons.
    repeat split; auto; try discriminate.
    + constructor; auto. unfold byte_ok. pose proof (zlen_nonneg _ l). lia.
    + intros rest _. exists (VBytes l). cbn [dec_ty].
      rewrite (proj2 (image_enc_dec m l rest V2 V3)). cbn. auto.
  - (* A *) intros m W v V. destruct v; cbn in V; try contradiction. destruct V as (V1 & V2 & V3).
    destruct (image_enc_dec m l [] V2 V3) as [E _].
    exists (zlen l :: l). cbn [enc_ty wlen_ty]. unfold ascii_enc. rewrite bytes_okb, E by auto.
    rewrite zlen_cons. repeat split; auto; try discriminate.
    + constructor; auto. unfold byte_ok. pose proof (zlen_nonneg _ l). lia.
    + intros rest _. exists (VStr l). cbn [dec_ty].
      rewrite (proj2 (image_enc_dec m l rest V2 V3)). cbn. auto.
  - (* EX *) intros m W v V. destruct v; cbn in V; try contradiction. cbn in W.
    destruct (ex_enc_dec m z [] W V) as (r & E & R & _).
    exists r. cbn [enc_ty wlen_ty]. split; auto. split; [eapply ex_repr_bytes; eauto|].
    split; [eapply ex_repr_len; eauto|]. split; [intros _; eapply ex_repr_cons; eauto|].
    intros rest _. destruct (ex_enc_dec m z rest W V) as (r' & E' & _ & D).
    assert (r' = r) by congruence. subst r'. exists (VInt z). cbn [dec_ty]. rewrite D. cbn. auto.
  - (* I_tlv *) intros W v V. destruct v; cbn in V; try contradiction.
    exists l. cbn. repeat split; auto; try discriminate.
    intros rest Hr. rewrite (Hr eq_refl), app_nil_r. eauto.
  - (* BV *) intros n W v V. destruct v; cbn in V; try contradiction. destruct V as [V1 V2].
    exists l. cbn [enc_ty wlen_ty]. unfold bv_enc, zlen. rewrite V2.
    destruct (Z.ltb_spec (Z.of_nat n) (Z.of_nat n)); [lia|]. rewrite Nat.sub_diag. cbn [repeat].
    rewrite app_nil_r. repeat split; auto.
    + intros S X. cbn [solid_ty solid_row] in S. subst l. cbn in V2. lia.
    + intros rest _. exists (VBytes l). cbn [dec_ty]. rewrite fixed_dec_ok by auto. cbn. auto.
  - (* PAYLOAD *) intros W v V. destruct v; cbn in V; try contradiction.
    exists l. cbn. repeat split; auto; try discriminate.
    intros rest Hr. rewrite (Hr eq_refl), app_nil_r. eauto.
  - (* LIST *) intros t IH count W v V. destruct v; cbn [val_ok] in V; try contradiction.
    destruct V as [V1 V2]. cbn [wf_ty] in W. destruct W as (W1 & W2 & W3).
    destruct (list_round t IH W1 W2 l V1) as (b & E & B & L & N & A).
    exists b. cbn [enc_ty wlen_ty]. repeat split; auto.
    + destruct count; discriminate.
    + intros rest Hr. destruct count as [n|]; cbn [dec_ty].
      * subst n. destruct (N rest) as (l' & D & Q). rewrite D. cbn [bind].
        eexists. split; [reflexivity|]. cbn. eauto.
      * rewrite (Hr eq_refl), app_nil_r. destruct (A W3 (length b) (le_n _)) as (l' & D & Q).
        rewrite D. cbn [bind]. eexists. split; [reflexivity|]. cbn. eauto.
  - (* PKT *) intros r IH W v V. destruct v; cbn [val_ok] in V; try contradiction.
    cbn [wf_ty] in W. destruct W as [W1 W2].
    destruct (IH W1 W2 a V) as (b & E & B & L & S & D).
    exists b. cbn [enc_ty wlen_ty]. repeat split; auto.
    intros rest Hr. destruct (D false [] rest Hr) as (a' & D1 & Q & _).
    { intros n _. reflexivity. }
    cbn [dec_ty]. rewrite D1. cbn [bind]. eexists. split; [reflexivity|]. cbn. eauto.
  - (* simple row *) intros t IH n c W N a V. cbn [wf_row row_ok] in W, V. destruct W as [W1 W2].
    destruct V as (v & G & V). destruct (simple_round t n c IH W1 W2 a v G V) as (b & E & B & L & S & D).
    exists b. cbn [enc_row wlen_row]. rewrite G. repeat split; auto.
  - (* BM *) intros flen els W N a V. cbn [wf_row row_ok] in W, V. destruct W as [W1 W2].
    destruct (bm_fold_ok flen els a W1 V) as (F & E & R & X).
    exists (le_enc flen F). cbn [enc_row wlen_row]. unfold bm_enc. rewrite E. cbn [bind].
    rewrite to_bytes_ok by auto. rewrite zlen_le_enc. repeat split; auto using le_enc_bytes.
    + intros S Y. cbn [solid_ty solid_row] in S. apply (f_equal (@length Z)) in Y. rewrite le_enc_length in Y. cbn [length] in Y. lia.
    + intros tol a0 rest _ Hf. cbn [dec_rowx]. rewrite fixed_dec_ok by apply le_enc_length.
      cbn [bind]. rewrite le_dec_enc by auto.
      destruct (bm_unpack_ok els a a0 F W2 N) as (a' & E' & A' & K').
      { intros e He. rewrite Forall_forall in V. destruct (V e He) as (z & G & _).
        rewrite G. rewrite (X e z He G). auto. }
      rewrite E'. cbn [bind]. exists a'. split; auto.
  - (* RES *) intros n W N a V. exists (repeat 0 n). cbn [enc_row wlen_row]. repeat split; auto.
    + unfold bytes_ok. apply Forall_forall. intros x Hx. apply repeat_spec in Hx. subst. unfold byte_ok. lia.
    + unfold zlen. rewrite repeat_length. auto.
    + intros S X. cbn [solid_ty solid_row] in S. destruct n; [discriminate|discriminate].
    + intros tol a0 rest _ Hf. exists a0. cbn [dec_rowx]. unfold require.
      assert (zlen (repeat 0 n) = Z.of_nat n) by (unfold zlen; rewrite repeat_length; auto).
      rewrite zlen_app. pose proof (zlen_nonneg _ rest).
      destruct (Z.ltb_spec (zlen (repeat 0 n) + zlen rest) (Z.of_nat n)); [lia|]. cbn [bind].
      rewrite from_app_exact by auto. split; auto. split; cbn; auto. intros m _. auto.
  - (* TLV *) intros tlen llen wild cs IH W N a V. cbn [wf_row row_ok] in W, V.
    destruct W as (W1 & W2 & W3 & W4).
    destruct (IH tlen llen W1 W4 N W3 a V) as (b & E & B & L & D).
    exists b. cbn [enc_row wlen_row]. repeat split; auto; [discriminate|].
    intros tol a0 rest Hr Hf. rewrite (Hr eq_refl), app_nil_r. cbn [dec_rowx].
    destruct (D tol wild (look_codes tol cs) a0 (length b) (le_n _)) as (a' & D1 & Q & K).
    + clear - W2. intros k r H. induction cs as [|k' r' t IH]; cbn in *; [contradiction|].
      inversion W2; subst. destruct H as [[-> ->]|H].
      * rewrite Z.eqb_refl. auto.
      * destruct (Z.eqb_spec k k') as [->|]; auto.
        exfalso. apply H2. clear - H. induction t; cbn in *; [contradiction|].
        destruct H as [[-> _]|H]; auto.
    + exact Hf.
    + rewrite D1. cbn [bind]. exists a'. auto.
  - (* rnil *) intros W N a V. exists []. cbn. repeat split; auto; try constructor; try discriminate.
    intros tol a0 rest _ _. exists a0. split; auto. split; auto. intros n _. auto.
  - (* rcons *) intros r IHr t IHt W N a V. cbn [wf_rows rows_ok names_rows] in W, N, V.
    destruct W as (W1 & W2 & W3). destruct V as [V1 V2].
    apply NoDup_app_inv in N as (N1 & N2 & N3).
    destruct (IHr W1 N1 a V1) as (b1 & E1 & B1 & L1 & S1 & D1).
    destruct (IHt W3 N2 a V2) as (b2 & E2 & B2 & L2 & S2 & D2).
    exists (b1 ++ b2). cbn [enc_rows wlen_rows]. rewrite E1. cbn [bind]. rewrite E2. cbn [bind].
    split; auto. split; [apply bytes_ok_app; auto|]. split; [rewrite zlen_app; lia|]. split.
    { intros S X. cbn [solid_rows] in S. apply app_eq_nil in X as [X1 X2].
      apply orb_prop in S as [S|S]; [|apply S2; auto]. apply S1; auto. }
    intros tol a0 rest Hr Hf.
    assert (F1 : final_row r = true -> b2 ++ rest = []).
    { intros F. destruct t as [|r' t'].
      - cbn in E2. injection E2 as <-. cbn. apply Hr. destruct r; cbn in *; auto.
      - congruence. }
    assert (F2 : final_rows t = true -> rest = []).
    { intros F. apply Hr. destruct t; [discriminate|]. exact F. }
    destruct (D1 tol a0 (b2 ++ rest) F1) as (a1 & X1 & Q1 & K1).
    { intros n Hn. apply Hf. cbn. apply in_or_app. auto. }
    destruct (D2 tol a1 rest F2) as (a2 & X2 & Q2 & K2).
    { intros n Hn. rewrite K1.
      - apply Hf. cbn. apply in_or_app. auto.
      - intro Y. exact (N3 _ Y Hn). }
    exists a2. cbn [dec_rows]. rewrite <- app_assoc. rewrite X1.
    assert (Y : match r with
        | RSimple _ _ _ => atfield (Ok (a1, b2 ++ rest))
        | _ => Ok (a1, b2 ++ rest) end = Ok (a1, b2 ++ rest)) by (destruct r; auto).
    rewrite Y. cbn [bind]. split; auto. split.
    + cbn. split; auto. eapply agree_row_frame; [|exact Q1]. intros n Hn. apply K2. auto.
    + intros n Hn. cbn in Hn. rewrite in_app_iff in Hn. rewrite K2, K1; tauto.
  - (* cnil *) intros tlen llen HL W N HT a V. exists []. cbn. repeat split; auto; try constructor.
    intros tol wild look a0 fuel _ _ _. exists a0. destruct fuel; cbn; repeat split; auto; intros n _; auto.
  - (* ccons *) intros k r IHr t IHt tlen llen HL W N HT a V.
    cbn [wf_codes codes_ok names_codes tags] in W, N, V, HT.
    destruct W as (W1 & W2 & W3). destruct V as [V1 V2].
    apply NoDup_app_inv in N as (N1 & N2 & N3).
    destruct (IHt tlen llen HL W3 N2 (fun k H => HT k (or_intror H)) a V2) as (b2 & E2 & B2 & L2 & D2).
    (* the item, when present *)
    assert (ITEM : forall b1 : list Z, bytes_ok b1 -> zlen b1 < 256 ^ Z.of_nat llen ->
      (forall tol a0, fresh (names_row r) a0 ->
         exists a', dec_rowx tol r a0 b1 = Ok (a', []) /\ agree_row r a a' /\ frame (names_row r) a0 a') ->
      let item : list Z := le_enc tlen k ++ le_enc llen (zlen b1) ++ b1 in
      to_bytes tlen k = Ok (le_enc tlen k) /\ to_bytes llen (zlen b1) = Ok (le_enc llen (zlen b1)) /\
      bytes_ok item /\ zlen item = Z.of_nat (tlen + llen) + zlen b1 /\
      forall tol wild look a0 fuel, (length (item ++ b2) <= fuel)%nat ->
        (forall k' r', in_codes k' r' (ccons k r t) -> look k' = Some (dec_rowx tol r')) ->
        fresh (names_codes (ccons k r t)) a0 ->
        exists a', tlv_loop fuel tol wild tlen llen look a0 (item ++ b2) = Ok a' /\
          agree_codes (ccons k r t) a a' /\ frame (names_codes (ccons k r t)) a0 a').
    { intros b1 HB1 HL1 HD item. pose proof (zlen_nonneg _ b1) as Z1.
      split; [apply to_bytes_ok; apply HT; cbn; auto|].
      split; [apply to_bytes_ok; lia|].
      split; [unfold item; rewrite !bytes_ok_app; auto using le_enc_bytes|].
      split; [unfold item; rewrite !zlen_app, !zlen_le_enc; lia|].
      intros tol wild look a0 fuel Hfu Hlk Hf.
      destruct fuel as [|fuel].
      { exfalso. unfold item in Hfu. rewrite !app_length, !le_enc_length in Hfu. lia. }
      destruct (item ++ b2) as [|x xs] eqn:EI.
      { exfalso. apply (f_equal (@length Z)) in EI. unfold item in EI.
        rewrite !app_length, !le_enc_length in EI. cbn in EI. lia. }
      cbn [tlv_loop]. rewrite <- EI.
      assert (ZI : zlen (item ++ b2) = Z.of_nat (tlen + llen) + zlen b1 + zlen b2).
      { unfold item. rewrite !zlen_app, !zlen_le_enc. lia. }
      pose proof (zlen_nonneg _ b2) as Z2.
      destruct (Z.ltb_spec (zlen (item ++ b2)) (Z.of_nat (tlen + llen))); [lia|].
      assert (U1 : upto (Z.of_nat tlen) (item ++ b2) = le_enc tlen k).
      { unfold item. rewrite <- app_assoc. apply upto_app_exact. rewrite zlen_le_enc. auto. }
      assert (U2 : upto (Z.of_nat llen) (from (Z.of_nat tlen) (item ++ b2)) = le_enc llen (zlen b1)).
      { unfold item. rewrite <- app_assoc. rewrite from_app_exact by (rewrite zlen_le_enc; auto).
        rewrite <- app_assoc. apply upto_app_exact. rewrite zlen_le_enc. auto. }
      assert (U3 : from (Z.of_nat (tlen + llen)) (item ++ b2) = b1 ++ b2).
      { unfold item. rewrite (app_assoc (le_enc tlen k)), <- app_assoc. apply from_app_exact.
        rewrite zlen_app, !zlen_le_enc. lia. }
      rewrite U1, U2, U3. rewrite !le_dec_enc by (try lia; apply HT; cbn; auto).
      rewrite zlen_app. destruct (Z.ltb_spec (zlen b1 + zlen b2) (zlen b1)); [lia|].
      rewrite (Hlk k r) by (cbn; auto). rewrite upto_app_exact, from_app_exact by auto.
      destruct (HD tol a0) as (a1 & X1 & Q1 & K1).
      { intros n Hn. apply Hf. cbn. apply in_or_app. auto. }
      rewrite X1. cbn [bind].
      destruct (D2 tol wild look a1 fuel) as (a2 & X2 & Q2 & K2).
      { rewrite <- EI in Hfu. unfold item in Hfu. rewrite !app_length, !le_enc_length in Hfu. lia. }
      { intros k' r' H'. apply Hlk. cbn. auto. }
      { intros n Hn. rewrite K1.
        - apply Hf. cbn. apply in_or_app. auto.
        - intro Y. exact (N3 _ Y Hn). }
      exists a2. split; auto. split.
      + cbn. split; auto. eapply agree_row_frame; [|exact Q1]. intros n Hn. apply K2. auto.
      + intros n Hn. cbn in Hn. rewrite in_app_iff in Hn. rewrite K2, K1; tauto. }
    assert (GROUP : forall b1, enc_row r a = Ok b1 -> match r with RSimple _ _ _ => False | _ => True end ->
       enc_codes tlen llen (ccons k r t) a =
       let* kt := to_bytes tlen k in let* lt := to_bytes llen (zlen b1) in
       Ok ((kt ++ lt ++ b1) ++ b2)).
    { intros b1 E1 NS. cbn [enc_codes]. rewrite E2.
      destruct r; try contradiction; rewrite E1; cbn [bind];
      destruct (to_bytes tlen k); cbn [bind]; auto; destruct (to_bytes llen (zlen b1)); cbn [bind]; auto. }
    destruct r as [ty n c|flen els|n|tl ll w cs'].
    + cbn [wf_row] in W1. destruct W1 as [W11 W12].
      destruct (getattr a n c) as [v|] eqn:G.
      * destruct V1 as [V1 V1'].
        assert (RT : round_row (RSimple ty n c)) by exact IHr.
        destruct (RT (conj W11 W12) N1 a (ex_intro _ v (conj G V1))) as (b1 & E1 & B1 & L1 & S1 & D1).
        cbn [enc_row wlen_row] in E1, L1. rewrite G in E1, L1.
        destruct (ITEM b1 B1) as (T1 & T2 & I1 & I2 & I3); [lia| |].
        { intros tol a0 Hf. destruct (D1 tol a0 [] (fun _ => eq_refl) Hf) as (a' & X & Q & K).
          rewrite app_nil_r in X. eauto. }
        eexists. cbn [enc_codes wlen_codes]. rewrite G, E1. cbn [bind]. rewrite T1, T2. cbn [bind].
        rewrite E2. cbn [bind]. split; [reflexivity|].
        split; [apply bytes_ok_app; auto|]. split; [|exact I3].
        rewrite zlen_app, I2. lia.
      * exists b2. cbn [enc_codes wlen_codes]. rewrite G. cbn [bind]. rewrite E2. cbn [bind app].
        split; auto. split; auto. split; [lia|].
        intros tol wild look a0 fuel Hfu Hlk Hf.
        destruct (D2 tol wild look a0 fuel Hfu) as (a2 & X2 & Q2 & K2).
        { intros. apply Hlk. cbn. auto. }
        { intros m Hm. apply Hf. cbn. apply in_or_app. auto. }
        exists a2. split; auto. split.
        -- cbn. split; auto. destruct c; cbn; auto. cbn in G. rewrite G.
           rewrite K2.
           ++ rewrite Hf; [auto|]. cbn. auto.
           ++ apply N3. cbn. auto.
        -- intros m Hm. cbn in Hm. rewrite in_app_iff in Hm. apply K2. tauto.
    + destruct V1 as [V1 V1'].
      destruct (IHr W1 N1 a V1) as (b1 & E1 & B1 & L1 & S1 & D1).
      destruct (ITEM b1 B1) as (T1 & T2 & I1 & I2 & I3); [lia| |].
      { intros tol a0 Hf. destruct (D1 tol a0 [] (fun _ => eq_refl) Hf) as (a' & X & Q & K).
        rewrite app_nil_r in X. eauto. }
      eexists. rewrite (GROUP b1 E1 I). rewrite T1, T2. cbn [bind]. split; [reflexivity|].
      split; [apply bytes_ok_app; auto|]. split; [|exact I3].
      rewrite zlen_app, I2. cbn [wlen_codes]. lia.
    + destruct V1 as [V1 V1'].
      destruct (IHr W1 N1 a V1) as (b1 & E1 & B1 & L1 & S1 & D1).
      destruct (ITEM b1 B1) as (T1 & T2 & I1 & I2 & I3); [lia| |].
      { intros tol a0 Hf. destruct (D1 tol a0 [] (fun _ => eq_refl) Hf) as (a' & X & Q & K).
        rewrite app_nil_r in X. eauto. }
      eexists. rewrite (GROUP b1 E1 I). rewrite T1, T2. cbn [bind]. split; [reflexivity|].
      split; [apply bytes_ok_app; auto|]. split; [|exact I3].
      rewrite zlen_app, I2. cbn [wlen_codes]. lia.
    + contradiction.
Qed.
