(** A boolean check that a layout is meaningful, so that the theorems of
    PacketProps.v apply to the layouts of pydecnet by computation. *)
From Verif Require Import Base PacketModel PacketSpec PacketProofs PacketRound PacketSafe PacketProps.

Definition disjb (e f : bme) : bool :=
  (be_start e + be_bits e <=? be_start f) || (be_start f + be_bits f <=? be_start e).
Fixpoint bm_wfb (flen : nat) (els : list bme) : bool :=
  match els with
  | [] => true
  | e :: t => (0 <=? be_start e) && (1 <=? be_bits e) && (be_start e + be_bits e <=? 8 * Z.of_nat flen) &&
              forallb (disjb e) t && bm_wfb flen t
  end.
Definition const_flatb (c : const) : bool :=
  match c with CRo (VList _) | CRo (VPkt _) | CAny (VList _) | CAny (VPkt _) => false | _ => true end.
Fixpoint znodupb (l : list Z) : bool :=
  match l with [] => true | x :: t => negb (existsb (Z.eqb x) t) && znodupb t end.
Definition is_tlv (r : row) : bool := match r with RTLV _ _ _ _ => true | _ => false end.
Definition is_rnil (r : rows) : bool := match r with rnil => true | _ => false end.
Fixpoint wf_tyb (t : ty) : bool :=
  match t with
  | TSIGNED n => (1 <=? n)%nat
  | TCTR n => (n <=? 8)%nat
  | TEX m => (1 <=? m)%nat
  | TLIST t' c => wf_tyb t' && negb (final_ty t') && match c with None => solid_ty t' | _ => true end
  | TPKT r => wf_rowsb r && nodupb (names_rows r)
  | _ => true
  end
with wf_rowb (r : row) : bool :=
  match r with
  | RSimple t _ c => wf_tyb t && const_flatb c
  | RBM flen els => bm_wfb flen els && forallb (fun e => const_flatb (be_const e)) els
  | RRES _ => true
  | RTLV tlen llen _ cs =>
      (1 <=? tlen + llen)%nat && znodupb (tags cs) &&
      forallb (fun k => (0 <=? k) && (k <? 256 ^ Z.of_nat tlen)) (tags cs) && wf_codesb cs
  end
with wf_rowsb (r : rows) : bool :=
  match r with
  | rnil => true
  | rcons x t => wf_rowb x && (is_rnil t || negb (final_row x)) && wf_rowsb t
  end
with wf_codesb (cs : codes) : bool :=
  match cs with
  | cnil => true
  | ccons _ r t => wf_rowb r && negb (is_tlv r) && wf_codesb t
  end.
Lemma bm_wfb_ok : forall n els, bm_wfb n els = true -> bm_wf n els.
Proof.
  induction els as [|e t IH]; cbn [bm_wfb bm_wf]; intros H; auto.
  repeat (apply andb_prop in H; destruct H as (H & ?)).
  repeat split; try lia; auto.
  intros f Hf. rewrite forallb_forall in H1. apply H1 in Hf. unfold disjb in Hf. unfold bme_disj. lia.
Qed.
Lemma const_flatb_ok : forall c, const_flatb c = true -> const_flat c.
Proof. destruct c as [|v|v]; cbn; auto; destruct v; cbn; auto; discriminate. Qed.
Lemma znodupb_ok : forall l, znodupb l = true -> NoDup l.
Proof.
  induction l as [|x l IH]; intros H; constructor; cbn in H; apply andb_prop in H as [H1 H2]; auto.
  intro X. apply negb_true_iff in H1. assert (existsb (Z.eqb x) l = true).
  { apply existsb_exists. exists x. split; auto. apply Z.eqb_refl. }
  congruence.
Qed.
Lemma wf_check :
  (forall t, wf_tyb t = true -> wf_ty t) /\ (forall r, wf_rowb r = true -> wf_row r) /\
  (forall r, wf_rowsb r = true -> wf_rows r) /\ (forall c, wf_codesb c = true -> wf_codes c).
Proof.
  apply (layout_mut (fun t => wf_tyb t = true -> wf_ty t) (fun r => wf_rowb r = true -> wf_row r)
           (fun r => wf_rowsb r = true -> wf_rows r) (fun c => wf_codesb c = true -> wf_codes c)).
  all: cbn [wf_tyb wf_rowb wf_rowsb wf_codesb wf_ty wf_row wf_rows wf_codes]; intros; auto.
  all: repeat match goal with H : _ && _ = true |- _ => apply andb_prop in H; destruct H end.
  all: try (apply Nat.leb_le; auto; fail).
  - split; [auto|]. split; [apply negb_true_iff; auto|destruct count; auto].
  - split; [auto|apply nodupb_ok; auto].
  - split; [auto|apply const_flatb_ok; auto].
  - split; [apply bm_wfb_ok; auto|]. apply Forall_forall. intros e He.
    rewrite forallb_forall in H0. apply const_flatb_ok, H0, He.
  - split; [apply Nat.leb_le; auto|]. split; [apply znodupb_ok; auto|]. split; [|auto].
    intros k Hk. rewrite forallb_forall in H2. apply H2 in Hk. lia.
  - split; [auto|]. split; [|auto]. destruct t; auto.
    cbn [is_rnil orb] in H3. apply negb_true_iff; auto.
  - split; [auto|]. split; [|auto]. destruct r; auto; discriminate.
Qed.
Lemma wf_safe :
  (forall t, wf_ty t -> safe_ty t) /\ (forall r, wf_row r -> safe_row r) /\
  (forall r, wf_rows r -> safe_rows r) /\ (forall c, wf_codes c -> safe_codes c).
Proof.
  apply (layout_mut (fun t => wf_ty t -> safe_ty t) (fun r => wf_row r -> safe_row r)
           (fun r => wf_rows r -> safe_rows r) (fun c => wf_codes c -> safe_codes c));
    cbn [safe_ty safe_row safe_rows safe_codes wf_ty wf_row wf_rows wf_codes]; intros; auto; try tauto.
Qed.
Definition layout_ok (L : rows) : bool := wf_rowsb L && nodupb (names_rows L).
(** C06 and C07 for a layout that passes the check. *)
Lemma layout_round_trip : forall L a, layout_ok L = true -> rows_ok L a ->
  exists b, encode L a = Ok b /\ bytes_ok b /\ zlen b = wlen_rows L a /\
    forall tol rest, (final_rows L = true -> rest = []) ->
      exists a', decode tol L (b ++ rest) = Ok (a', rest) /\
        agree_rows L a a' /\ forall n, ~ In n (names_rows L) -> get a' n = None.
Proof.
  intros L a H V. apply andb_prop in H. destruct H as (H1 & H2).
  apply packet_round_trip; auto. apply wf_check; auto. apply nodupb_ok; auto.
Qed.
Lemma layout_safe : forall L tol buf, layout_ok L = true -> bytes_ok buf ->
  match decode tol L buf with
  | Ok (_, rest) => exists p, buf = p ++ rest
  | Err e => e = EDecode
  end.
Proof.
  intros L tol buf H B. apply andb_prop in H. destruct H as (H1 & H2).
  apply packet_decode_safe; auto. apply wf_safe, wf_check; auto.
Qed.
