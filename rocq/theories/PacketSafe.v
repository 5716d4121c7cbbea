From Verif Require Import Base PacketModel PacketSpec PacketProofs PacketRound.

(** A decoder result is safe: a suffix of the input, or DecodeError. *)
Definition safe_res {A} (solid : bool) (buf : list Z) (r : res (A * list Z)) : Prop :=
  match r with
  | Ok (_, rest) => exists p, buf = p ++ rest /\ (solid = true -> p <> [])
  | Err e => e = EDecode
  end.

Lemma bytes_suffix : forall p r, bytes_ok (p ++ r) -> bytes_ok r.
Proof. intros p r H. apply bytes_ok_app in H. tauto. Qed.

Lemma fixed_safe : forall n buf, safe_res (0 <? n)%nat buf (fixed_dec n buf).
Proof.
  intros. unfold fixed_dec, require. destruct (Z.ltb_spec (zlen buf) (Z.of_nat n)); cbn [bind safe_res]; auto.
  exists (upto (Z.of_nat n) buf). rewrite upto_from. split; auto.
  intros S X. apply (f_equal (@zlen Z)) in X. rewrite zlen_upto in X by lia. cbn in X. lia.
Qed.

Lemma image_safe : forall m buf, bytes_ok buf -> safe_res true buf (image_dec m buf).
Proof.
  intros m [|x t] H; cbn [image_dec safe_res]; auto.
  destruct (m <? x); cbn [safe_res]; auto.
  destruct (zlen (upto x t) =? x); cbn [safe_res]; auto.
  exists (x :: upto x t). cbn [app]. rewrite upto_from. split; auto. discriminate.
Qed.

Lemma ex_safe : forall l sh v buf, safe_res true buf (ex_dec_loop l sh v buf).
Proof.
  induction l as [|l IH]; intros sh v buf; cbn [ex_dec_loop safe_res]; auto.
  destruct buf as [|b t]; cbn [safe_res]; auto.
  destruct (b <? 128).
  - cbn [safe_res]. exists [b]. cbn. split; auto. discriminate.
  - destruct l; cbn [safe_res]; auto.
    specialize (IH (sh + 7) (Z.lor v (Z.shiftl (Z.land b 127) sh)) t).
    destruct (ex_dec_loop (S l) (sh + 7) _ t) as [[z r]|e]; cbn [safe_res] in *; auto.
    destruct IH as (p & -> & _). exists (b :: p). split; auto. discriminate.
Qed.

Lemma safe_map : forall A B s buf (r : res (A * list Z)) (f : A -> B),
  safe_res s buf r -> safe_res s buf (let* (x, rest) := r in Ok (f x, rest)).
Proof. intros A B s buf [[x r]|e] f H; cbn in *; auto. Qed.

Lemma safe_weak : forall A s buf (r : res (A * list Z)), safe_res s buf r -> safe_res false buf r.
Proof.
  intros A s buf [[x r]|e] H; cbn in *; auto. destruct H as (p & E & _). exists p.
  split; auto. discriminate.
Qed.

Lemma list_n_safe : forall dec, (forall buf, bytes_ok buf -> safe_res false buf (dec buf)) ->
  forall n buf, bytes_ok buf -> safe_res false buf (list_n n dec buf).
Proof.
  intros dec S. induction n as [|n IH]; intros buf H; cbn [list_n].
  - exists []. split; auto. discriminate.
  - specialize (S buf H). destruct (dec buf) as [[v r]|e]; cbn in S |- *; auto.
    destruct S as (p & -> & _). specialize (IH r (bytes_suffix _ _ H)).
    destruct (list_n n dec r) as [[l r']|e]; cbn in IH |- *; auto.
    destruct IH as (p' & -> & _). exists (p ++ p'). rewrite app_assoc. split; auto. discriminate.
Qed.

Lemma list_all_safe : forall dec, (forall buf, bytes_ok buf -> safe_res true buf (dec buf)) ->
  forall f buf, (length buf <= f)%nat -> bytes_ok buf -> safe_res false buf (list_all f dec buf).
Proof.
  intros dec S. induction f as [|f IH]; intros buf L H.
  - destruct buf; [|cbn in L; lia]. exists []. split; auto. discriminate.
  - destruct buf as [|x buf]; cbn [list_all].
    { exists []. split; auto. discriminate. }
    specialize (S _ H). destruct (dec (x :: buf)) as [[v r]|e]; cbn in S |- *; auto.
    destruct S as (p & E & NE). rewrite E in H. specialize (NE eq_refl).
    assert (LR : (length r <= f)%nat).
    { apply (f_equal (@length Z)) in E. rewrite app_length in E. destruct p; [congruence|].
      cbn in E, L. lia. }
    specialize (IH r LR (bytes_suffix _ _ H)).
    destruct (list_all f dec r) as [[l r']|e]; cbn in IH |- *; auto.
    destruct IH as (p' & -> & _). exists (p ++ p'). rewrite E, app_assoc. split; auto. discriminate.
Qed.

Lemma setattr_safe : forall a n c v, match setattr a n c v with Ok _ => True | Err e => e = EDecode end.
Proof. intros. destruct c; cbn; auto. destruct (val_eqb v v0); auto. Qed.

Lemma bm_unpack_safe : forall els F a, match bm_unpack els F a with Ok _ => True | Err e => e = EDecode end.
Proof.
  induction els as [|e els IH]; intros F a; cbn [bm_unpack]; auto.
  pose proof (setattr_safe a (be_name e) (be_const e)
    (VInt (Z.land (Z.shiftr F (be_start e)) (Z.ones (be_bits e))))) as H.
  destruct (setattr a _ _ _); cbn [bind]; auto. apply IH.
Qed.

Definition tlv_good (r : res attrs) : Prop := match r with Ok _ => True | Err e => e = EDecode end.

Lemma tlv_safe : forall tol wild tlen llen look,
  (1 <= tlen + llen)%nat ->
  (forall k d, look k = Some d -> forall a buf, bytes_ok buf -> safe_res false buf (d a buf)) ->
  forall f a buf, (length buf <= f)%nat -> bytes_ok buf ->
  tlv_good (tlv_loop f tol wild tlen llen look a buf).
Proof.
  intros tol wild tlen llen look HL SL. induction f as [|f IH]; intros a buf L H.
  - destruct buf; [exact I|cbn in L; lia].
  - destruct buf as [|x buf]; [exact I|]. cbn [tlv_loop].
    set (B := x :: buf) in *.
    destruct (Z.ltb_spec (zlen B) (Z.of_nat (tlen + llen))); [destruct tol; cbn; auto|].
    set (vlen := le_dec (upto (Z.of_nat llen) (from (Z.of_nat tlen) B))).
    assert (V0 : 0 <= vlen).
    { unfold vlen. apply le_dec_range. apply bytes_ok_upto. apply bytes_ok_from. auto. }
    set (body := from (Z.of_nat (tlen + llen)) B) in *.
    assert (BB : bytes_ok body) by (apply bytes_ok_from; auto).
    destruct (Z.ltb_spec (zlen body) vlen); [cbn; auto|].
    assert (LB : (length (from vlen body) <= f)%nat).
    { assert (zlen (from vlen body) = zlen body - vlen) by (apply zlen_from; lia).
      assert (zlen body = zlen B - Z.of_nat (tlen + llen)) by (apply zlen_from; lia).
      unfold zlen in *. lia. }
    assert (NEXT : forall a2 buf2, tlv_good (let* _ := match buf2 : list Z with [] => Ok tt | _ => if tol then Ok tt else Err EDecode end in
                    tlv_loop f tol wild tlen llen look a2 (from vlen body))).
    { intros. destruct buf2; cbn [bind]; [apply IH; auto using bytes_ok_from|].
      destruct tol; cbn [bind]; [|cbn; auto]. apply IH; auto using bytes_ok_from. }
    destruct (look (le_dec (upto (Z.of_nat tlen) B))) as [d|] eqn:EL.
    + specialize (SL _ _ EL a (upto vlen body) (bytes_ok_upto _ _ BB)).
      destruct (d a (upto vlen body)) as [[a2 buf2]|e]; cbn [bind].
      * apply NEXT.
      * cbn in SL. subst. reflexivity.
    + destruct wild; cbn [bind]; [|reflexivity]. apply (NEXT _ []).
Qed.

Theorem safe_all :
  (forall t, safe_ty t -> forall buf, bytes_ok buf -> safe_res (solid_ty t) buf (dec_ty t buf)) /\
  (forall r, safe_row r -> forall tol a buf, bytes_ok buf ->
     safe_res (solid_row r) buf (dec_rowx tol r a buf)) /\
  (forall r, safe_rows r -> forall tol a buf, bytes_ok buf ->
     safe_res (solid_rows r) buf (dec_rows tol r a buf)) /\
  (forall cs, safe_codes cs -> forall tol k d, look_codes tol cs k = Some d ->
     forall a buf, bytes_ok buf -> safe_res false buf (d a buf)).
Proof.
  apply layout_mut.
  - intros n _ buf H. cbn [dec_ty solid_ty]. apply safe_map, fixed_safe.
  - intros n _ buf H. cbn [dec_ty solid_ty]. apply (safe_map _ _ _ _ _ (fun h => VInt (le_dec_signed n h))), fixed_safe.
  - intros n _ buf H. cbn [dec_ty solid_ty]. apply safe_map, fixed_safe.
  - intros m _ buf H. cbn [dec_ty solid_ty]. apply (safe_map _ _ _ _ _ VBytes), image_safe. auto.
  - intros m _ buf H. cbn [dec_ty solid_ty]. apply (safe_map _ _ _ _ _ VStr), image_safe. auto.
  - intros m S buf H. cbn [dec_ty solid_ty]. apply (safe_map _ _ _ _ _ VInt).
    cbn in S. unfold ex_dec. destruct m; [lia|]. apply ex_safe.
  - intros _ buf H. cbn. exists buf. rewrite app_nil_r. split; auto. discriminate.
  - intros n _ buf H. cbn [dec_ty solid_ty]. apply (safe_map _ _ _ _ _ VBytes), fixed_safe.
  - intros _ buf H. cbn. exists buf. rewrite app_nil_r. split; auto. discriminate.
  - intros t IH count [S1 S2] buf H. cbn [dec_ty solid_ty].
    destruct count as [n|]; apply (safe_map _ _ _ _ _ VList).
    + apply list_n_safe; auto. intros. eapply safe_weak. auto.
    + apply list_all_safe; auto. intros b Hb. rewrite <- S2. auto.
  - intros r IH S buf H. cbn [dec_ty solid_ty]. apply (safe_map _ _ _ _ _ VPkt). auto.
  - intros t IH n c S tol a buf H. cbn [dec_rowx solid_row]. cbn in S. specialize (IH S buf H).
    destruct (dec_ty t buf) as [[v r]|e]; cbn [bind]; [|exact IH].
    pose proof (setattr_safe a n c v) as X. destruct (setattr a n c v); cbn [bind]; auto.
  - intros flen els S tol a buf H. cbn [dec_rowx solid_row].
    pose proof (fixed_safe flen buf) as X. destruct (fixed_dec flen buf) as [[h r]|e]; cbn [bind]; [|exact X].
    pose proof (bm_unpack_safe els (le_dec h) a) as Y. destruct (bm_unpack els (le_dec h) a); cbn [bind]; auto.
  - intros n S tol a buf H. cbn [dec_rowx solid_row].
    pose proof (fixed_safe n buf) as X. unfold fixed_dec in X.
    destruct (require buf (Z.of_nat n)); cbn [bind] in *; auto.
  - intros tlen llen wild cs IH [S1 S2] tol a buf H. cbn [dec_rowx solid_row].
    pose proof (tlv_safe tol wild tlen llen (look_codes tol cs) S1 (IH S2 tol) (length buf) a buf (le_n _) H) as X.
    destruct (tlv_loop _ _ _ _ _ _ _ _); cbn [bind]; [|exact X].
    exists buf. rewrite app_nil_r. split; auto. discriminate.
  - intros _ tol a buf H. cbn. exists []. split; auto; discriminate.
  - intros r IHr t IHt [S1 S2] tol a buf H. cbn [dec_rows solid_rows].
    specialize (IHr S1 tol a buf H).
    assert (X : safe_res (solid_row r) buf
       (match r with RSimple _ _ _ => atfield (dec_rowx tol r a buf) | _ => dec_rowx tol r a buf end)).
    { destruct r; auto. destruct (dec_rowx tol _ a buf) as [[? ?]|e]; auto. cbn in IHr. subst e. reflexivity. }
    fold (solid_row r). revert X.
    generalize (match r with RSimple _ _ _ => atfield (dec_rowx tol r a buf) | _ => dec_rowx tol r a buf end).
    intros [[a1 b1]|e] X; cbn [bind]; [|exact X]. cbn in X. destruct X as (p & -> & NE).
    specialize (IHt S2 tol a1 b1 (bytes_suffix _ _ H)).
    destruct (dec_rows tol t a1 b1) as [[a2 b2]|e]; cbn in IHt |- *; auto.
    destruct IHt as (p2 & -> & NE2). exists (p ++ p2). rewrite app_assoc. split; auto.
    intros S Y. apply app_eq_nil in Y as [Y1 Y2]. apply orb_prop in S as [S|S]; [apply NE|apply NE2]; auto.
  - intros _ tol k d X. discriminate.
  - intros k r IHr t IHt [S1 S2] tol k' d X a buf H. cbn [look_codes] in X.
    destruct (k' =? k).
    + injection X as <-. eapply safe_weak. apply IHr; auto.
    + eapply IHt; eauto.
Qed.
