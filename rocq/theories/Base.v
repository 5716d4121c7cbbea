(** Shared vocabulary: Python results and exceptions, byte strings, little
    endian integers.  Nothing here models a specific pydecnet function except
    where a comment cites one. *)
From Coq Require Export ZArith List Bool Lia.
From Coq Require Export ZifyBool ZifyNat ZifyN.
Export ListNotations.
Ltac Zify.zify_post_hook ::= Z.div_mod_to_equations.
#[global] Open Scope Z_scope.

(** Python exceptions, as values. [EDecode] stands for DecodeError and all its
    subclasses (common.py:64-75); [EDiverge] marks a Python loop that would
    never terminate. *)
Inductive exn :=
| EDecode | EOverflow | EValue | EIndex | EKey | EType | EAttr | EName
| EAssert | ERange | EDiverge.

Inductive res (A : Type) :=
| Ok (a : A)
| Err (e : exn).
Arguments Ok {A} a.
Arguments Err {A} e.

Definition bind {A B} (r : res A) (f : A -> res B) : res B :=
  match r with Ok a => f a | Err e => Err e end.
Notation "'let*' x := r 'in' k" := (bind r (fun x => k))
  (at level 200, x pattern, right associativity).

Definition exn_eqb (a b : exn) : bool :=
  match a, b with
  | EDecode, EDecode | EOverflow, EOverflow | EValue, EValue
  | EIndex, EIndex | EKey, EKey | EType, EType | EAttr, EAttr
  | EName, EName | EAssert, EAssert | ERange, ERange
  | EDiverge, EDiverge => true
  | _, _ => false
  end.

(** Bytes. *)
Notation byte := Z (only parsing).
Definition byte_ok (b : byte) : Prop := 0 <= b < 256.
Definition bytes_ok (l : list byte) : Prop := Forall byte_ok l.
Definition byte_okb (b : byte) : bool := (0 <=? b) && (b <? 256).

Definition zlen {A} (l : list A) : Z := Z.of_nat (length l).

(** [int.to_bytes (n, "little")] on an in-range value, and
    [int.from_bytes (l, "little")]. *)
Fixpoint le_enc (n : nat) (v : Z) : list byte :=
  match n with
  | O => []
  | S n' => v mod 256 :: le_enc n' (v / 256)
  end.

Fixpoint le_dec (l : list byte) : Z :=
  match l with
  | [] => 0
  | b :: t => b + 256 * le_dec t
  end.

(** [int.to_bytes (n, "little")] including the OverflowError. *)
Definition to_bytes (n : nat) (v : Z) : res (list byte) :=
  if (0 <=? v) && (v <? 256 ^ Z.of_nat n) then Ok (le_enc n v)
  else Err EOverflow.

(** Python slices [l[:n]] and [l[n:]] for non-negative n. *)
Definition upto {A} (n : Z) (l : list A) : list A := firstn (Z.to_nat n) l.
Definition from {A} (n : Z) (l : list A) : list A := skipn (Z.to_nat n) l.

(** common.py:120-122 [require]. *)
Definition require {A} (buf : list A) (minlen : Z) : res unit :=
  if zlen buf <? minlen then Err EDecode else Ok tt.

(** List equality on Z, as Python [==] on byte strings. *)
Fixpoint leqb (a b : list Z) : bool :=
  match a, b with
  | [], [] => true
  | x :: a', y :: b' => (x =? y) && leqb a' b'
  | _, _ => false
  end.

(** *** Lemmas *)
Lemma leqb_eq : forall a b, leqb a b = true <-> a = b.
Proof.
  induction a as [|x a IH]; destruct b as [|y b]; cbn; split; intro H;
    try discriminate; auto.
  - apply andb_true_iff in H as [H1 H2]. apply Z.eqb_eq in H1.
    apply IH in H2. congruence.
  - injection H as -> ->. rewrite Z.eqb_refl. cbn. apply IH. reflexivity.
Qed.

Lemma zlen_nonneg : forall A (l : list A), 0 <= zlen l.
Proof. intros. unfold zlen. lia. Qed.

Lemma zlen_app : forall A (a b : list A), zlen (a ++ b) = zlen a + zlen b.
Proof. intros. unfold zlen. rewrite app_length. lia. Qed.

Lemma zlen_cons : forall A (x : A) l, zlen (x :: l) = 1 + zlen l.
Proof. intros. unfold zlen. cbn [length]. lia. Qed.

Lemma zlen_nil : forall A, zlen (@nil A) = 0.
Proof. reflexivity. Qed.

Lemma upto_app_exact : forall A (a b : list A) n,
  n = zlen a -> upto n (a ++ b) = a.
Proof.
  intros A a b n ->. unfold upto, zlen. rewrite Nat2Z.id.
  rewrite firstn_app, Nat.sub_diag, firstn_all. cbn. apply app_nil_r.
Qed.

Lemma from_app_exact : forall A (a b : list A) n,
  n = zlen a -> from n (a ++ b) = b.
Proof.
  intros A a b n ->. unfold from, zlen. rewrite Nat2Z.id.
  rewrite skipn_app, Nat.sub_diag, skipn_all. reflexivity.
Qed.

Lemma upto_from : forall A n (l : list A), upto n l ++ from n l = l.
Proof. intros. unfold upto, from. apply firstn_skipn. Qed.

Lemma zlen_upto : forall A n (l : list A),
  0 <= n <= zlen l -> zlen (upto n l) = n.
Proof. intros A n l H. unfold zlen, upto in *. rewrite firstn_length. lia. Qed.

Lemma zlen_from : forall A n (l : list A),
  0 <= n <= zlen l -> zlen (from n l) = zlen l - n.
Proof. intros A n l H. unfold zlen, from in *. rewrite skipn_length. lia. Qed.

Lemma bytes_ok_app : forall a b,
  bytes_ok (a ++ b) <-> bytes_ok a /\ bytes_ok b.
Proof. intros. unfold bytes_ok. apply Forall_app. Qed.

Lemma bytes_ok_upto : forall n l, bytes_ok l -> bytes_ok (upto n l).
Proof.
  intros n l H. unfold upto, bytes_ok in *.
  rewrite Forall_forall in *. intros x Hx. apply H.
  rewrite <- (firstn_skipn (Z.to_nat n) l). apply in_or_app. auto.
Qed.

Lemma bytes_ok_from : forall n l, bytes_ok l -> bytes_ok (from n l).
Proof.
  intros n l H. unfold from, bytes_ok in *.
  rewrite Forall_forall in *. intros x Hx. apply H.
  rewrite <- (firstn_skipn (Z.to_nat n) l). apply in_or_app. auto.
Qed.

Lemma le_enc_length : forall n v, length (le_enc n v) = n.
Proof. induction n; intros; cbn; auto. Qed.

Lemma zlen_le_enc : forall n v, zlen (le_enc n v) = Z.of_nat n.
Proof. intros. unfold zlen. rewrite le_enc_length. reflexivity. Qed.

Lemma le_enc_bytes : forall n v, bytes_ok (le_enc n v).
Proof.
  induction n; intros; cbn; constructor; auto; try apply IHn.
  unfold byte_ok. lia.
Qed.

Lemma pow256_S : forall n, 256 ^ Z.of_nat (S n) = 256 * 256 ^ Z.of_nat n.
Proof. intros. rewrite Nat2Z.inj_succ, Z.pow_succ_r; lia. Qed.

Lemma le_dec_enc : forall n v, 0 <= v < 256 ^ Z.of_nat n ->
  le_dec (le_enc n v) = v.
Proof.
  induction n; intros v H.
  - cbn in *. lia.
  - rewrite pow256_S in H. cbn [le_enc le_dec]. rewrite IHn; lia.
Qed.

Lemma le_dec_enc_mod : forall n v, le_dec (le_enc n v) = v mod 256 ^ Z.of_nat n.
Proof.
  induction n; intros v.
  - cbn. rewrite Z.mod_1_r. reflexivity.
  - rewrite pow256_S. cbn [le_enc le_dec]. rewrite IHn.
    assert (0 < 256 ^ Z.of_nat n) by (apply Z.pow_pos_nonneg; lia).
    rewrite Z.rem_mul_r by lia. reflexivity.
Qed.

Lemma le_dec_range : forall l, bytes_ok l ->
  0 <= le_dec l < 256 ^ Z.of_nat (length l).
Proof.
  induction l as [|b l IH]; intros H.
  - cbn. lia.
  - inversion H; subst. cbn [length le_dec]. rewrite pow256_S.
    unfold byte_ok in *. specialize (IH H3). lia.
Qed.

Lemma le_enc_dec : forall l, bytes_ok l -> le_enc (length l) (le_dec l) = l.
Proof.
  induction l as [|b l IH]; intros H; cbn [le_enc le_dec length]; auto.
  inversion H; subst. unfold byte_ok in *. f_equal.
  - lia.
  - replace ((b + 256 * le_dec l) / 256) with (le_dec l) by lia. auto.
Qed.

Lemma to_bytes_ok : forall n v, 0 <= v < 256 ^ Z.of_nat n ->
  to_bytes n v = Ok (le_enc n v).
Proof.
  intros. unfold to_bytes.
  destruct (Z.leb_spec 0 v); destruct (Z.ltb_spec v (256 ^ Z.of_nat n));
    cbn; auto; lia.
Qed.

Lemma to_bytes_inv : forall n v b, to_bytes n v = Ok b ->
  0 <= v < 256 ^ Z.of_nat n /\ b = le_enc n v.
Proof.
  unfold to_bytes. intros n v b H.
  destruct (Z.leb_spec 0 v); destruct (Z.ltb_spec v (256 ^ Z.of_nat n));
    cbn in H; try discriminate. injection H as <-. auto.
Qed.

Lemma bind_ok : forall A B (r : res A) (f : A -> res B) b,
  bind r f = Ok b -> exists a, r = Ok a /\ f a = Ok b.
Proof. intros A B [a|e] f b H; cbn in H; [eauto | discriminate]. Qed.

Lemma NoDup_app_inv : forall (A : Type) (a b : list A), NoDup (a ++ b) ->
  NoDup a /\ NoDup b /\ (forall x, In x a -> ~ In x b).
Proof.
  induction a as [|x a IH]; cbn; intros b H.
  - repeat split; auto. constructor.
  - inversion H; subst. destruct (IH _ H3) as (H4 & H5 & H6).
    rewrite in_app_iff in H2. repeat split; auto.
    + constructor; auto.
    + intros y [<-|Hy]; auto.
Qed.

Lemma NoDup_app_intro : forall (A : Type) (a b : list A), NoDup a -> NoDup b ->
  (forall x, In x a -> ~ In x b) -> NoDup (a ++ b).
Proof.
  induction a as [|x a IH]; cbn; intros b H1 H2 H3; auto.
  inversion H1; subst. constructor.
  - rewrite in_app_iff. intros [H|H]; [auto|]. eapply H3; eauto.
  - apply IH; auto.
Qed.

Lemma skipn_add : forall (A : Type) a b (l : list A), skipn (a + b) l = skipn b (skipn a l).
Proof.
  induction a as [|a IH]; intros b l; auto. destruct l; cbn [Nat.add skipn]; auto.
  destruct b; reflexivity.
Qed.
Lemma from_from : forall (A : Type) x y (l : list A), 0 <= x -> 0 <= y -> from (x + y) l = from y (from x l).
Proof. intros. unfold from. rewrite <- skipn_add. f_equal. lia. Qed.
