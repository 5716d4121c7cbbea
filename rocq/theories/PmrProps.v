(** C71: poor man's routing. *)
From Coq Require Import String Ascii.
From Verif Require Import Base AddrModel AddrProps PmrModel.

(** *** What is meant *)
Definition chars (s : string) : list Z := map (fun a => Z.of_nat (nat_of_ascii a)) (list_ascii_of_string s).
Definition letter (c : Z) : Prop := 65 <= c <= 90 \/ 97 <= c <= 122.
(** A node name or address. *)
Definition node_word (s : list Z) : Prop := s <> [] /\ Forall (fun c => letter c \/ digit c \/ c = 46) s.
Definition colons : list Z := chars "::".
(** Further nodes, each after two colons. *)
Definition onward (l : list (list Z)) : list Z := flat_map (fun n => colons ++ n) l.
Definition quoted (q : list Z) : Prop := q = [] \/ q = [34] \/ q = [39].
Definition blank (c : Z) : Prop := 9 <= c <= 13 \/ 28 <= c <= 32 \/ c = 133 \/ c = 160.
(** The word "task=", in any case. *)
Definition task_word (w : list Z) : Prop := Forall2 (fun a b => a = b \/ 97 <= b <= 122 /\ a = b - 32) w (chars "task=").
(** What may follow the nodes: nothing, an object number, or a task name. *)
Inductive object_part : list Z -> option (list Z) -> option (list Z) -> Prop :=
| op_nothing : forall nl, maybe_newline nl -> object_part nl None None
| op_empty : forall q1 q2 nl, quoted q1 -> quoted q2 -> maybe_newline nl -> object_part (colons ++ q1 ++ q2 ++ nl) None None
| op_number : forall q1 d q2 nl, quoted q1 -> number d -> quoted q2 -> maybe_newline nl ->
    object_part (colons ++ q1 ++ d ++ [61] ++ q2 ++ nl) (Some d) None
| op_task : forall q1 w t nl, quoted q1 -> task_word w -> t <> [] -> Forall (fun c => ~ blank c) t -> maybe_newline nl ->
    object_part (colons ++ q1 ++ w ++ t ++ nl) None (Some t).
(** A destination: a node, further nodes, an object. *)
Definition destination (s n : list Z) (l : list (list Z)) (a b : option (list Z)) : Prop :=
  node_word n /\ Forall node_word l /\ exists t, s = n ++ onward l ++ t /\ object_part t a b.

(** *** The matcher *)
Lemma plus_some : forall A p s (k : list Z -> list Z -> option A) x, plus p s k = Some x ->
  exists a r, s = a ++ r /\ a <> [] /\ Forall (fun c => p c = true) a /\ k a r = Some x.
Proof.
  intros A p. induction s as [|c t IH]; intros k x H; cbn [plus] in H; [discriminate H|].
  destruct (p c) eqn:P; [|discriminate H]. destruct (plus p t (fun a r => k (c :: a) r)) as [y|] eqn:Q; cbn [orelse] in H.
  - injection H as ->. destruct (IH _ _ Q) as (a & r & -> & _ & F & K). exists (c :: a), r. split; [reflexivity|]. split; [discriminate|]. split; [constructor; auto | exact K].
  - exists [c], t. split; [reflexivity|]. split; [discriminate|]. split; [constructor; auto | exact H].
Qed.
Lemma plus_none : forall A p s (k : list Z -> list Z -> option A), plus p s k = None ->
  forall a r, s = a ++ r -> a <> [] -> Forall (fun c => p c = true) a -> k a r = None.
Proof.
  intros A p. induction s as [|c t IH]; intros k H a r E NE F.
  - destruct a; [contradiction NE; reflexivity | discriminate E].
  - cbn [plus] in H. destruct a as [|c' a]; [contradiction NE; reflexivity|]. injection E as <- ->. inversion F as [|? ? F1 F2]; subst.
    rewrite F1 in H. destruct (plus p (a ++ r) (fun b q => k (c :: b) q)) as [y|] eqn:Q; cbn [orelse] in H; [discriminate H|].
    destruct a as [|c2 a]; [exact H|]. apply (IH _ Q (c2 :: a) r); [reflexivity | discriminate | exact F2].
Qed.
Lemma quote_some : forall A s (k : list Z -> option A) x, quote_opt s k = Some x ->
  exists q r, s = q ++ r /\ quoted q /\ k r = Some x.
Proof.
  intros A [|c t] k x H; cbn [quote_opt] in H; [exists [], []; repeat split; [left; reflexivity | exact H]|].
  unfold is_quote in H. destruct (Z.eqb_spec c 34) as [-> | N1]; [|destruct (Z.eqb_spec c 39) as [-> | N2]]; cbn [orb] in H.
  - destruct (k t) as [y|] eqn:K; cbn [orelse] in H; [injection H as ->; exists [34], t | exists [], (34 :: t)]; repeat split; auto; [right; left; reflexivity | left; reflexivity].
  - destruct (k t) as [y|] eqn:K; cbn [orelse] in H; [injection H as ->; exists [39], t | exists [], (39 :: t)]; repeat split; auto; [right; right; reflexivity | left; reflexivity].
  - exists [], (c :: t). repeat split; [left; reflexivity | exact H].
Qed.
Lemma quote_none : forall A s (k : list Z -> option A), quote_opt s k = None -> forall q r, s = q ++ r -> quoted q -> k r = None.
Proof.
  intros A s k H q r E Q. destruct Q as [-> | [-> | ->]]; cbn [app] in E; subst s.
  - destruct r as [|c t]; [exact H|]. cbn [quote_opt] in H. destruct (is_quote c); [|exact H]. destruct (k t); cbn [orelse] in H; [discriminate H | exact H].
  - cbn [quote_opt] in H. change (is_quote 34) with true in H. destruct (k r); cbn [orelse] in H; [discriminate H | reflexivity].
  - cbn [quote_opt] in H. change (is_quote 39) with true in H. destruct (k r); cbn [orelse] in H; [discriminate H | reflexivity].
Qed.
Lemma lower1_cases : forall c, (65 <= c <= 90 /\ lower1 c = c + 32) \/ (~ 65 <= c <= 90 /\ lower1 c = c).
Proof. intro c. unfold lower1. destruct (Z.leb_spec 65 c), (Z.leb_spec c 90); cbn [andb]; lia. Qed.
Lemma lit_some : forall A w s (k : list Z -> option A) x, lit w s k = Some x ->
  exists v r, s = v ++ r /\ Forall2 (fun a b => lower1 a = b) v w /\ k r = Some x.
Proof.
  intros A. induction w as [|b w IH]; intros s k x H.
  - exists [], s. repeat split; [constructor | destruct s; exact H].
  - destruct s as [|c t]; cbn [lit] in H; [discriminate H|]. destruct (Z.eqb_spec (lower1 c) b) as [E | N]; [|discriminate H].
    destruct (IH _ _ _ H) as (v & r & -> & F & K). exists (c :: v), r. repeat split; [constructor; auto | exact K].
Qed.
Lemma lit_app : forall A v w r (k : list Z -> option A), Forall2 (fun a b => lower1 a = b) v w -> lit w (v ++ r) k = k r.
Proof.
  intros A v w r k H. induction H as [|a b v w H _ IH]; [destruct r; reflexivity|]. cbn [app lit]. rewrite H, Z.eqb_refl. exact IH.
Qed.
Lemma task_lower : forall v, Forall2 (fun a b => lower1 a = b) v s_task <-> task_word v.
Proof.
  unfold task_word. change (chars "task=") with s_task. intro v.
  assert (H : forall w, Forall (fun b => 97 <= b <= 122 \/ b = 61) w -> forall u, Forall2 (fun a b => lower1 a = b) u w <-> Forall2 (fun a b => a = b \/ 97 <= b <= 122 /\ a = b - 32) u w).
  { induction 1 as [|b w B _ IH]; intro u.
    - split; intro H; inversion H; constructor.
    - split; intro H; inversion H as [|a ? u' ? H1 H2]; subst; constructor; try (apply IH; assumption);
        destruct (lower1_cases a) as [[X Y] | [X Y]]; rewrite ?Y in *; lia. }
  apply H. repeat constructor; lia.
Qed.
Lemma at_end_nl : forall s, at_end s = true <-> maybe_newline s.
Proof.
  intros [|c [|d s]]; cbn [at_end]; unfold maybe_newline; split; intro H; auto; try discriminate H.
  - apply Z.eqb_eq in H. subst. auto. - destruct H as [H | H]; [discriminate H|]. injection H as ->. reflexivity.
  - destruct H as [H | H]; discriminate H.
Qed.
Lemma end_some : forall A (x y : A) s, end_of x s = Some y -> y = x /\ maybe_newline s.
Proof. intros A x y s H. unfold end_of in H. destruct (at_end s) eqn:E; [|discriminate H]. injection H as <-. split; [reflexivity | apply at_end_nl, E]. Qed.
Lemma end_nl : forall A (x : A) s, maybe_newline s -> end_of x s = Some x.
Proof. intros A x s H. apply at_end_nl in H. unfold end_of. rewrite H. reflexivity. Qed.
Lemma digits_number : forall d, d <> [] /\ Forall (fun c => is_digit c = true) d <-> number d.
Proof.
  intro d. unfold number. assert (F : Forall (fun c => is_digit c = true) d <-> Forall digit d).
  { split; intro H; (eapply Forall_impl; [|exact H]); intros c C; unfold is_digit, digit in *; lia. }
  rewrite F. reflexivity.
Qed.
Lemma space_blank : forall c, negb (is_space c) = true <-> ~ blank c.
Proof.
  intro c. unfold is_space, blank. rewrite negb_true_iff, !orb_false_iff, !andb_false_iff. lia.
Qed.
Lemma plus_max : forall A p s (k : list Z -> list Z -> option A) x, plus p s k = Some x ->
  exists a r, s = a ++ r /\ a <> [] /\ Forall (fun c => p c = true) a /\ k a r = Some x /\
    forall a2 r2, r = a2 ++ r2 -> a2 <> [] -> Forall (fun c => p c = true) a2 -> k (a ++ a2) r2 = None.
Proof.
  intros A p. induction s as [|c t IH]; intros k x H; cbn [plus] in H; [discriminate H|].
  destruct (p c) eqn:P; [|discriminate H]. destruct (plus p t (fun a r => k (c :: a) r)) as [y|] eqn:Q; cbn [orelse] in H.
  - injection H as ->. destruct (IH _ _ Q) as (a & r & -> & _ & F & K & M). exists (c :: a), r. split; [reflexivity|]. split; [discriminate|]. split; [constructor; auto|]. split; [exact K | exact M].
  - exists [c], t. split; [reflexivity|]. split; [discriminate|]. split; [constructor; auto|]. split; [exact H|].
    intros a2 r2 E NE F. exact (plus_none _ _ _ _ Q a2 r2 E NE F).
Qed.
Lemma quote_nl : forall A (x : A) nl, maybe_newline nl -> quote_opt nl (end_of x) = Some x.
Proof. intros A x nl [-> | ->]; reflexivity. Qed.
Lemma tail_sound : forall s a b, tail_opt s = Some (a, b) -> object_part s a b.
Proof.
  intros s a b H. unfold tail_opt in H.
  set (first := match s with 58 :: 58 :: r => _ | _ => None end) in H.
  destruct first as [p|] eqn:E; cbn [orelse] in H.
  - injection H as ->. unfold first in E. clear first.
    destruct s as [|c1 [|c2 r]]; try discriminate E.
    { destruct (Z.eq_dec c1 58) as [-> | N]; [discriminate E|]. destruct c1 as [|p|p]; try discriminate E. repeat (destruct p as [p|p|]; try discriminate E). }
    assert (E1 : c1 = 58). { destruct (Z.eq_dec c1 58) as [X | N]; [exact X|]. exfalso. destruct c1 as [|p|p]; try discriminate E. repeat (destruct p as [p|p|]; try discriminate E). contradiction N; reflexivity. }
    subst c1.
    assert (E2 : c2 = 58). { destruct (Z.eq_dec c2 58) as [X | N]; [exact X|]. exfalso. destruct c2 as [|p|p]; try discriminate E. repeat (destruct p as [p|p|]; try discriminate E). contradiction N; reflexivity. }
    subst c2. apply quote_some in E as (q1 & r1 & -> & Q1 & E). unfold object_opt in E.
    change (58 :: 58 :: q1 ++ r1) with (colons ++ q1 ++ r1).
    destruct (plus is_digit r1 _) as [y|] eqn:P; cbn [orelse] in E.
    { injection E as ->. apply plus_some in P as (d & r2 & -> & ND & FD & K). destruct r2 as [|c r2]; [discriminate K|].
      assert (c = 61). { destruct (Z.eq_dec c 61) as [X | N]; [exact X|]. exfalso. destruct c as [|p|p]; try discriminate K. repeat (destruct p as [p|p|]; try discriminate K). contradiction N; reflexivity. }
      subst c. apply quote_some in K as (q2 & nl & -> & Q2 & K). apply end_some in K as [K NL]. injection K as -> ->.
      change (d ++ 61 :: q2 ++ nl) with (d ++ [61] ++ q2 ++ nl). apply op_number; auto. apply digits_number. auto. }
    destruct (lit s_task r1 _) as [y|] eqn:L; cbn [orelse] in E.
    { injection E as ->. apply lit_some in L as (w & r2 & -> & FW & K). apply plus_max in K as (t & r3 & -> & NT & FT & K & MX).
      apply quote_some in K as (q2 & nl & -> & Q2 & K). apply end_some in K as [K NL]. injection K as -> ->.
      assert (q2 = []).
      { destruct q2 as [|c q2]; [reflexivity|]. exfalso.
        assert (FQ : Forall (fun c => negb (is_space c) = true) (c :: q2)) by (destruct Q2 as [X | [X | X]]; [discriminate X | rewrite X | rewrite X]; repeat constructor).
        specialize (MX (c :: q2) nl eq_refl ltac:(discriminate) FQ). cbv beta in MX. rewrite quote_nl in MX by exact NL. discriminate MX. }
      subst q2. cbn [app]. apply op_task; auto; [apply task_lower, FW|]. eapply Forall_impl; [|exact FT]. intros c C. apply space_blank, C. }
    apply quote_some in E as (q2 & nl & -> & Q2 & K). apply end_some in K as [K NL]. injection K as -> ->. apply op_empty; auto.
  - apply end_some in H as [H NL]. injection H as -> ->. apply op_nothing, NL.
Qed.

Lemma tail_total : forall s a b, object_part s a b -> tail_opt s <> None.
Proof.
  intros s a b H. unfold tail_opt. destruct H as [nl NL|q1 q2 nl Q1 Q2 NL|q1 d q2 nl Q1 D Q2 NL|q1 w t nl Q1 W NT FT NL].
  - rewrite end_nl by exact NL. destruct (match nl with 58 :: 58 :: _ => _ | _ => None end); discriminate.
  - change (colons ++ q1 ++ q2 ++ nl) with (58 :: 58 :: q1 ++ q2 ++ nl). cbv iota.
    match goal with |- orelse ?X _ <> None => destruct X eqn:E; [discriminate|] end. exfalso.
    pose proof (quote_none _ _ _ E q1 (q2 ++ nl) eq_refl Q1) as E1. cbv beta in E1. unfold object_opt in E1.
    destruct (plus is_digit _ _); [discriminate E1|]. destruct (lit s_task _ _); [discriminate E1|]. cbn [orelse] in E1.
    pose proof (quote_none _ _ _ E1 q2 nl eq_refl Q2) as E2. rewrite end_nl in E2 by exact NL. discriminate E2.
  - change (colons ++ q1 ++ d ++ [61] ++ q2 ++ nl) with (58 :: 58 :: q1 ++ d ++ 61 :: q2 ++ nl). cbv iota.
    match goal with |- orelse ?X _ <> None => destruct X eqn:E; [discriminate|] end. exfalso.
    pose proof (quote_none _ _ _ E q1 _ eq_refl Q1) as E1. cbv beta in E1. unfold object_opt in E1.
    destruct (plus is_digit _ _) eqn:P; [discriminate E1|]. apply digits_number in D as [D1 D2].
    pose proof (plus_none _ _ _ _ P d (61 :: q2 ++ nl) eq_refl D1 D2) as E2. cbv beta iota in E2.
    pose proof (quote_none _ _ _ E2 q2 nl eq_refl Q2) as E3. rewrite end_nl in E3 by exact NL. discriminate E3.
  - change (colons ++ q1 ++ w ++ t ++ nl) with (58 :: 58 :: q1 ++ w ++ t ++ nl). cbv iota.
    match goal with |- orelse ?X _ <> None => destruct X eqn:E; [discriminate|] end. exfalso.
    pose proof (quote_none _ _ _ E q1 _ eq_refl Q1) as E1. cbv beta in E1. unfold object_opt in E1.
    destruct (plus is_digit _ _); [discriminate E1|]. cbn [orelse] in E1. apply task_lower in W. rewrite (lit_app _ w s_task) in E1 by exact W.
    destruct (plus (fun c => negb (is_space c)) _ _) eqn:P; [discriminate E1|].
    assert (FT' : Forall (fun c => negb (is_space c) = true) t) by (eapply Forall_impl; [|exact FT]; intros c C; apply space_blank, C).
    pose proof (plus_none _ _ _ _ P t nl eq_refl NT FT') as E2. cbv beta in E2. rewrite quote_nl in E2 by exact NL. discriminate E2.
Qed.
(** The parts of a string are determined by it. *)
Lemma quoted_chars : forall q, quoted q -> Forall (fun c => c = 34 \/ c = 39) q.
Proof. intros q [-> | [-> | ->]]; [constructor | constructor; [lia | constructor] | constructor; [lia | constructor]]. Qed.
Lemma newline_chars : forall q, maybe_newline q -> Forall (fun c => c = 10) q.
Proof. intros q [-> | ->]; repeat constructor. Qed.
Lemma task_chars : forall w, task_word w -> exists c w4, w = c :: w4 ++ [61] /\ (c = 84 \/ c = 116) /\ Forall letter w4 /\ length w4 = 3%nat.
Proof.
  intros w W. unfold task_word in W. change (chars "task=") with [116; 97; 115; 107; 61] in W.
  inversion W as [|a1 ? ? ? H1 W1]; subst. inversion W1 as [|a2 ? ? ? H2 W2]; subst. inversion W2 as [|a3 ? ? ? H3 W3]; subst.
  inversion W3 as [|a4 ? ? ? H4 W4]; subst. inversion W4 as [|a5 ? ? ? H5 W5]; subst. inversion W5; subst.
  exists a1, [a2; a3; a4]. assert (a5 = 61) by lia. subst a5. split; [reflexivity|]. split; [lia|]. split; [|reflexivity].
  do 3 (constructor; [unfold letter; lia|]). constructor.
Qed.
Lemma filter_all : forall (p : Z -> bool) l, Forall (fun c => p c = true) l -> filter p l = l.
Proof. induction 1 as [|c l H _ IH]; [reflexivity|]. cbn [filter]. rewrite H, IH. reflexivity. Qed.
Lemma filter_no : forall (p : Z -> bool) l, Forall (fun c => p c = false) l -> filter p l = [].
Proof. induction 1 as [|c l H _ IH]; [reflexivity|]. cbn [filter]. rewrite H. exact IH. Qed.
Lemma object_fun : forall s a b a' b', object_part s a b -> object_part s a' b' -> a = a' /\ b = b'.
Proof.
  intros s a b a' b' H H'.
  (* the digits of a string with a number, the first letter of one with a task *)
  assert (DG : forall q1 d q2 nl, quoted q1 -> number d -> quoted q2 -> maybe_newline nl -> filter is_digit (colons ++ q1 ++ d ++ [61] ++ q2 ++ nl) = d).
  { intros q1 d q2 nl Q1 D Q2 NL. apply digits_number in D as [_ D]. rewrite !filter_app, (filter_all _ d D).
    assert (Q : forall q, quoted q -> filter is_digit q = []) by (intros q [-> | [-> | ->]]; reflexivity).
    rewrite (Q q1 Q1), (Q q2 Q2). replace (filter is_digit nl) with (@nil Z) by (destruct NL as [-> | ->]; reflexivity).
    change (filter is_digit colons) with (@nil Z). change (filter is_digit [61]) with (@nil Z). cbn [app]. rewrite app_nil_r. reflexivity. }
  assert (NO : forall q1 q2 nl, quoted q1 -> quoted q2 -> maybe_newline nl -> Forall (fun c => c <> 61) (colons ++ q1 ++ q2 ++ nl)).
  { intros q1 q2 nl Q1 Q2 NL. repeat (apply Forall_app; split).
    - change colons with [58; 58]. do 2 (constructor; [lia|]). constructor.
    - eapply Forall_impl; [|apply quoted_chars, Q1]. cbn. intros; lia.
    - eapply Forall_impl; [|apply quoted_chars, Q2]. cbn. intros; lia.
    - eapply Forall_impl; [|apply newline_chars, NL]. cbn. intros; lia. }
  assert (NOT : forall q1 d q2 nl, quoted q1 -> number d -> quoted q2 -> maybe_newline nl -> Forall (fun c => c <> 84 /\ c <> 116) (colons ++ q1 ++ d ++ [61] ++ q2 ++ nl)).
  { intros q1 d q2 nl Q1 [_ D] Q2 NL. repeat (apply Forall_app; split).
    - change colons with [58; 58]. do 2 (constructor; [lia|]). constructor.
    - eapply Forall_impl; [|apply quoted_chars, Q1]. cbn. intros; lia.
    - eapply Forall_impl; [|exact D]. unfold digit. cbn. intros; lia.
    - constructor; [lia | constructor].
    - eapply Forall_impl; [|apply quoted_chars, Q2]. cbn. intros; lia.
    - eapply Forall_impl; [|apply newline_chars, NL]. cbn. intros; lia. }
  assert (I61n : forall q1 d r, In 61 (colons ++ q1 ++ d ++ [61] ++ r)).
  { intros. do 3 (apply in_or_app; right). left. reflexivity. }
  assert (I61t : forall q1 w r, task_word w -> In 61 (colons ++ q1 ++ w ++ r) /\ exists c, (c = 84 \/ c = 116) /\ In c (colons ++ q1 ++ w ++ r)).
  { intros q1 w r W. apply task_chars in W as (c & w4 & -> & C & _). split.
    - do 2 (apply in_or_app; right). apply in_or_app. left. right. apply in_or_app. right. left. reflexivity.
    - exists c. split; [exact C|]. do 2 (apply in_or_app; right). left. reflexivity. }
  assert (NL58 : forall nl r, maybe_newline nl -> nl <> colons ++ r) by (intros nl r [-> | ->]; discriminate).
  destruct H as [nl NL|q1 q2 nl Q1 Q2 NL|q1 d q2 nl Q1 D Q2 NL|q1 w t nl Q1 W NT FT NL]; inversion H' as [nl' NL' E|q1' q2' nl' Q1' Q2' NL' E|q1' d' q2' nl' Q1' D' Q2' NL' E|q1' w' t' nl' Q1' W' NT' FT' NL' E]; subst; auto;
    try (exfalso; eapply NL58; [exact NL | reflexivity]; fail); try (exfalso; eapply NL58; [exact NL' | reflexivity]; fail).
  - exfalso. pose proof (NO q1 q2 nl Q1 Q2 NL) as F. rewrite <- E in F. rewrite Forall_forall in F. exact (F 61 (I61n _ _ _) eq_refl).
  - exfalso. pose proof (NO q1 q2 nl Q1 Q2 NL) as F. rewrite <- E in F. rewrite Forall_forall in F. exact (F 61 (proj1 (I61t _ _ _ W')) eq_refl).
  - exfalso. pose proof (NO q1' q2' nl' Q1' Q2' NL') as F. rewrite E in F. rewrite Forall_forall in F. exact (F 61 (I61n _ _ _) eq_refl).
  - split; [|reflexivity]. f_equal. transitivity (filter is_digit (colons ++ q1 ++ d ++ [61] ++ q2 ++ nl)); [symmetry; apply DG; auto|].
    transitivity (filter is_digit (colons ++ q1' ++ d' ++ [61] ++ q2' ++ nl')); [|apply DG; auto]. f_equal. symmetry. exact (f_equal (app colons) E).
  - exfalso. pose proof (NOT q1 d q2 nl Q1 D Q2 NL) as F. change ([61] ++ q2 ++ nl) with (61 :: q2 ++ nl) in F. rewrite <- E in F. rewrite Forall_forall in F. destruct (proj2 (I61t q1' w' (t' ++ nl') W')) as (c & C & I). specialize (F c I). lia.
  - exfalso. pose proof (NO q1' q2' nl' Q1' Q2' NL') as F. rewrite E in F. rewrite Forall_forall in F. exact (F 61 (proj1 (I61t _ _ _ W)) eq_refl).
  - exfalso. pose proof (NOT q1' d' q2' nl' Q1' D' Q2' NL') as F. change ([61] ++ q2' ++ nl') with (61 :: q2' ++ nl') in F. rewrite E in F. rewrite Forall_forall in F. destruct (proj2 (I61t q1 w (t ++ nl) W)) as (c & C & I). specialize (F c I). lia.
  - split; [reflexivity|]. f_equal.
    assert (T : forall t nl, Forall (fun c => ~ blank c) t -> maybe_newline nl -> filter (fun c => negb (is_space c)) (t ++ nl) = t).
    { intros u m F N. rewrite filter_app, filter_all, filter_no, app_nil_r; [reflexivity | | ].
      - destruct N as [-> | ->]; repeat constructor.
      - eapply Forall_impl; [|exact F]. intros c C. apply space_blank, C. }
    rewrite <- (T t nl FT NL), <- (T t' nl' FT' NL'). f_equal.
    assert (L5 : forall v, task_word v -> length v = 5%nat) by (intros v V; apply task_chars in V as (c & w4 & -> & _ & _ & L4); cbn [length]; rewrite app_length, L4; reflexivity).
    pose proof (conj (L5 w W) (L5 w' W')) as L. clear L5.
    assert (QE : q1 = q1').
    { apply task_chars in W as (c & w4 & -> & C & _). apply task_chars in W' as (c' & w4' & -> & C' & _).
      destruct Q1 as [-> | [-> | ->]], Q1' as [-> | [-> | ->]]; auto; injection E; intros; exfalso; lia. }
    subst q1'. apply app_inv_head in E. destruct L as [L1 L2]. clear - E L1 L2.
    do 6 (destruct w as [|? w]; try discriminate L1). do 6 (destruct w' as [|? w']; try discriminate L2).
    injection E. intros; auto.
Qed.
Lemma tail_spec : forall s a b, tail_opt s = Some (a, b) <-> object_part s a b.
Proof.
  intros s a b. split; [apply tail_sound|]. intro H. pose proof (tail_total s a b H) as T. destruct (tail_opt s) as [[a' b']|] eqn:E; [|contradiction T; reflexivity].
  apply tail_sound in E. destruct (object_fun _ _ _ _ _ H E) as [-> ->]. reflexivity.
Qed.
(** Nodes. *)
Lemma namec_spec : forall c, is_namec c = true <-> letter c \/ digit c \/ c = 46.
Proof.
  intro c. unfold is_namec, is_digit, letter, digit. cbv zeta.
  destruct (lower1_cases c) as [[X Y] | [X Y]]; rewrite Y; rewrite !orb_true_iff, !andb_true_iff; lia.
Qed.
Lemma node_word_spec : forall n, node_word n <-> n <> [] /\ Forall (fun c => is_namec c = true) n.
Proof.
  intro n. unfold node_word. assert (F : Forall (fun c => letter c \/ digit c \/ c = 46) n <-> Forall (fun c => is_namec c = true) n).
  { split; intro H; (eapply Forall_impl; [|exact H]); intros c C; apply namec_spec; exact C. }
  rewrite F. reflexivity.
Qed.
(** What does not go on with a name. *)
Definition no_name (s : list Z) : Prop := match s with c :: _ => is_namec c = false | [] => True end.
Lemma span_fun : forall n n' r r', Forall (fun c => is_namec c = true) n -> Forall (fun c => is_namec c = true) n' ->
  no_name r -> no_name r' -> n ++ r = n' ++ r' -> n = n' /\ r = r'.
Proof.
  induction n as [|c n IH]; intros [|c' n'] r r' F F' N N' E; cbn [app] in E.
  - auto.
  - inversion F' as [|? ? F1 F2]; subst. cbn [no_name] in N. congruence.
  - inversion F as [|? ? F1 F2]; subst. cbn [no_name] in N'. congruence.
  - injection E as <- E. inversion F; inversion F'; subst. destruct (IH n' r r') as [-> ->]; auto.
Qed.
Lemma object_no_name : forall t a b, object_part t a b -> no_name t.
Proof. intros t a b H. destruct H as [nl [-> | ->]|q1 q2 nl _ _ _|q1 d q2 nl _ _ _ _|q1 w t nl _ _ _ _ _]; exact I || reflexivity. Qed.
Lemma rest_no_name : forall l t a b, object_part t a b -> no_name (onward l ++ t).
Proof. intros [|n l] t a b H; [apply (object_no_name t a b H) | reflexivity]. Qed.
(** An object is not taken for a node. *)
Lemma object_not_node : forall t a b n l t' a' b', object_part t a b -> object_part t' a' b' -> node_word n ->
  t <> colons ++ n ++ onward l ++ t'.
Proof.
  intros t a b n l t' a' b' H H' N E. apply node_word_spec in N as [NN FN]. pose proof (rest_no_name l t' a' b' H') as RN.
  assert (Q : forall q r, quoted q -> q ++ r = n ++ onward l ++ t' -> q = []).
  { intros q r Q X. destruct n as [|c n]; [contradiction NN; reflexivity|]. inversion FN; subst.
    destruct Q as [-> | [-> | ->]]; [reflexivity | |]; injection X as <- _; discriminate. }
  assert (B : forall l t' a' b', object_part t' a' b' -> forall r, onward l ++ t' <> 61 :: r).
  { intros l0 u a0 b0 U r X. destruct l0 as [|m l0]; [|discriminate X]. cbn [onward flat_map app] in X. subst u.
    remember (61 :: r) as u eqn:EU. destruct U as [nl NL| | |]; try discriminate EU. destruct NL as [-> | ->]; discriminate EU. }
  destruct H as [nl NL|q1 q2 nl Q1 Q2 NL|q1 d q2 nl Q1 D Q2 NL|q1 w t nl Q1 W NT FT NL].
  - destruct NL as [-> | ->]; discriminate E.
  - apply app_inv_head in E. rewrite (Q q1 _ Q1 E) in E. cbn [app] in E. rewrite (Q q2 _ Q2 E) in E. cbn [app] in E.
    destruct n as [|c n]; [contradiction NN; reflexivity|]. inversion FN as [|? ? FN1 FN2]. destruct NL as [-> | ->]; [discriminate E|]. injection E as <- _. discriminate FN1.
  - apply app_inv_head in E. rewrite (Q q1 _ Q1 E) in E. cbn [app] in E. destruct D as [_ D].
    apply span_fun in E as [_ E]; auto; [symmetry in E; apply (B l t' a' b' H' _ E) | | reflexivity].
    eapply Forall_impl; [|exact D]. intros c C. apply namec_spec. auto.
  - apply app_inv_head in E. rewrite (Q q1 _ Q1 E) in E. cbn [app] in E. apply task_chars in W as (c & w4 & -> & C & F4 & _).
    change ((c :: w4 ++ [61]) ++ t ++ nl) with (c :: (w4 ++ [61]) ++ t ++ nl) in E. rewrite <- app_assoc in E. change (c :: w4 ++ [61] ++ t ++ nl) with ((c :: w4) ++ [61] ++ t ++ nl) in E.
    apply span_fun in E as [_ E]; auto; [symmetry in E; apply (B l t' a' b' H' _ E) | | reflexivity].
    constructor; [apply namec_spec; left; unfold letter; lia|]. eapply Forall_impl; [|exact F4]. intros x X. apply namec_spec. auto.
Qed.
Lemma onward_fun : forall l l' t t' a b a' b', object_part t a b -> object_part t' a' b' -> Forall node_word l -> Forall node_word l' ->
  onward l ++ t = onward l' ++ t' -> l = l' /\ t = t'.
Proof.
  induction l as [|n l IH]; intros [|n' l'] t t' a b a' b' H H' F F' E.
  - auto.
  - exfalso. inversion F' as [|? ? N' F2]; subst. change (onward [] ++ t) with t in E. change (onward (n' :: l')) with ((colons ++ n') ++ onward l') in E.
    rewrite <- !app_assoc in E. apply (object_not_node t a b n' l' t' a' b' H H' N' E).
  - exfalso. inversion F as [|? ? N F2]; subst. change (onward [] ++ t') with t' in E. change (onward (n :: l)) with ((colons ++ n) ++ onward l) in E.
    rewrite <- !app_assoc in E. symmetry in E. apply (object_not_node t' a' b' n l t a b H' H N E).
  - inversion F as [|? ? N F2]; inversion F' as [|? ? N' F2']; subst.
    change (onward (n :: l)) with ((colons ++ n) ++ onward l) in E. change (onward (n' :: l')) with ((colons ++ n') ++ onward l') in E.
    rewrite <- !app_assoc in E. apply app_inv_head in E. apply node_word_spec in N as [_ N]. apply node_word_spec in N' as [_ N'].
    apply span_fun in E as [-> E]; auto; [|apply (rest_no_name l t a b H) | apply (rest_no_name l' t' a' b' H')].
    destruct (IH l' t t' a b a' b' H H' F2 F2' E) as [-> ->]. auto.
Qed.
Lemma colon_case : forall A (s : list Z) (f : list Z -> option A) x,
  match s with 58 :: 58 :: r => f r | _ => None end = Some x -> exists r, s = colons ++ r /\ f r = Some x.
Proof.
  intros A s f x E. destruct s as [|c1 [|c2 r]]; [discriminate E | |].
  { exfalso. destruct c1 as [|p|p]; try discriminate E. repeat (destruct p as [p|p|]; try discriminate E). }
  assert (E1 : c1 = 58). { destruct (Z.eq_dec c1 58) as [X | N]; [exact X|]. exfalso. destruct c1 as [|p|p]; try discriminate E. repeat (destruct p as [p|p|]; try discriminate E). contradiction N; reflexivity. }
  subst c1.
  assert (E2 : c2 = 58). { destruct (Z.eq_dec c2 58) as [X | N]; [exact X|]. exfalso. destruct c2 as [|p|p]; try discriminate E. repeat (destruct p as [p|p|]; try discriminate E). contradiction N; reflexivity. }
  subst c2. exists r. split; [reflexivity | exact E].
Qed.
Lemma hops_sound : forall f s g2 g a b, hops f s g2 = Some (g, a, b) ->
  exists l t, s = onward l ++ t /\ Forall node_word l /\ g = g2 ++ onward l /\ object_part t a b.
Proof.
  induction f as [|f IH]; intros s g2 g a b H; cbn [hops] in H; [discriminate H|].
  destruct (tail_opt s) as [[a' b']|] eqn:T; cbn [orelse] in H.
  - injection H as <- <- <-. exists [], s. split; [reflexivity|]. split; [constructor|]. split; [cbn [onward flat_map]; rewrite app_nil_r; reflexivity|]. apply tail_spec, T.
  - apply colon_case in H as (r & -> & H). apply plus_some in H as (n & r' & -> & NN & FN & H).
    destruct (IH _ _ _ _ _ H) as (l & t & -> & F & -> & O). exists (n :: l), t.
    assert (X : onward (n :: l) = 58 :: 58 :: n ++ onward l) by reflexivity.
    split; [rewrite X; cbn [app]; rewrite <- app_assoc; reflexivity|]. split; [constructor; [apply node_word_spec; auto | exact F]|].
    split; [rewrite X, <- app_assoc; reflexivity | exact O].
Qed.
Lemma hops_total : forall l f g2 t a b, Forall node_word l -> object_part t a b -> (length l < f)%nat -> hops f (onward l ++ t) g2 <> None.
Proof.
  induction l as [|n l IH]; intros f g2 t a b F O L; (destruct f as [|f]; [lia|]); cbn [hops].
  - change (onward [] ++ t) with t. apply tail_spec in O. rewrite O. discriminate.
  - destruct (tail_opt (onward (n :: l) ++ t)) as [[a' b']|]; cbn [orelse]; [discriminate|]. inversion F as [|? ? N F2]; subst.
    change (onward (n :: l) ++ t) with (58 :: 58 :: (n ++ onward l) ++ t). rewrite <- app_assoc. cbv iota.
    intro H. apply node_word_spec in N as [NN FN]. pose proof (plus_none _ _ _ _ H n (onward l ++ t) eq_refl NN FN) as K.
    cbv beta in K. apply (IH f _ t a b F2 O ltac:(cbn [length] in L; lia) K).
Qed.
Lemma onward_length : forall l t, (length l <= length (onward l ++ t))%nat.
Proof.
  induction l as [|n l IH]; intro t; [cbn [length]; lia|]. change (onward (n :: l) ++ t) with (58 :: 58 :: (n ++ onward l) ++ t).
  rewrite <- app_assoc. cbn [length]. rewrite app_length. specialize (IH t). lia.
Qed.
Lemma destination_fun : forall s n l a b n' l' a' b', destination s n l a b -> destination s n' l' a' b' -> n = n' /\ l = l' /\ a = a' /\ b = b'.
Proof.
  intros s n l a b n' l' a' b' (N & F & t & -> & O) (N' & F' & t' & E & O'). apply node_word_spec in N as [_ N]. apply node_word_spec in N' as [_ N'].
  apply span_fun in E as [-> E]; auto; [|apply (rest_no_name l t a b O) | apply (rest_no_name l' t' a' b' O')].
  destruct (onward_fun l l' t t' a b a' b' O O' F F' E) as [-> ->]. destruct (object_fun _ _ _ _ _ O O') as [-> ->]. auto.
Qed.

(** *** C71: what a destination string means *)
(** The expression matches exactly the destinations, and its groups are the
    parts. *)
Theorem pmr_parse : forall s n g2 a b, pmr_match s = Some (n, g2, a, b) <-> exists l, g2 = onward l /\ destination s n l a b.
Proof.
  assert (SO : forall s n g2 a b, pmr_match s = Some (n, g2, a, b) -> exists l, g2 = onward l /\ destination s n l a b).
  { intros s n g2 a b H. unfold pmr_match in H. apply plus_some in H as (m & r & -> & NN & FN & H).
    destruct (hops _ r []) as [[[g a'] b']|] eqn:K; [|discriminate H]. injection H as <- <- <- <-.
    destruct (hops_sound _ _ _ _ _ _ K) as (l & t & -> & F & -> & O). exists l. split; [reflexivity|].
    split; [apply node_word_spec; auto|]. split; [exact F|]. exists t. auto. }
  intros s n g2 a b. split; [apply SO|]. intros (l & -> & D).
  destruct (pmr_match s) as [[[[n' g'] a'] b']|] eqn:E.
  - apply SO in E as (l' & -> & D'). destruct (destination_fun _ _ _ _ _ _ _ _ _ D D') as (-> & -> & -> & ->). reflexivity.
  - exfalso. destruct D as (N & F & t & -> & O). unfold pmr_match in E. apply node_word_spec in N as [NN FN].
    pose proof (plus_none _ _ _ _ E n _ eq_refl NN FN) as K. cbv beta in K.
    assert (L : (length l < S (length (n ++ onward l ++ t)))%nat) by (rewrite app_length; pose proof (onward_length l t); lia).
    pose proof (hops_total l _ [] t a b F O L) as HT. destruct (hops _ _ []) as [[[g a'] b']|]; [discriminate K | apply HT; reflexivity].
Qed.
Print Assumptions pmr_parse.

(** What a connect does with a destination string: where it goes, to which
    object, and what is asked of the relay there. *)
Definition named (u : user) (a b : option (list Z)) : user :=
  match b, a with Some t, _ => UStr t | None, Some d => UInt (dval d) | None, None => u end.
Theorem pmr_direct : forall h s u n a b, destination s n [] a b -> checkpmr h s u = (n, named u a b, None).
Proof.
  intros h s u n a b D. assert (E : pmr_match s = Some (n, [], a, b)) by (apply pmr_parse; exists []; auto).
  unfold checkpmr. rewrite E. unfold named. destruct b as [t|]; [reflexivity|]. destruct a as [d|]; [rewrite int10_dval; reflexivity | reflexivity].
Qed.
Print Assumptions pmr_direct.
Theorem pmr_other : forall h s u, (forall n l a b, ~ destination s n l a b) -> checkpmr h s u = (s, u, None).
Proof.
  intros h s u N. unfold checkpmr. destruct (pmr_match s) as [[[[n g] a] b]|] eqn:E; [|reflexivity].
  apply pmr_parse in E as (l & _ & D). contradiction (N n l a b D).
Qed.
Print Assumptions pmr_other.
(** How an object is written in a request. *)
Definition written (u : user) : list Z :=
  match u with UInt v => str10 v ++ [61] | UStr t => chars "TASK=" ++ t | UNone => chars "TASK=None" end.
Theorem pmr_request : forall h s u n m l a b, destination s n (m :: l) a b ->
  checkpmr h s u = (n, UInt 123, Some (h :: m ++ onward l ++ colons ++ written (named u a b))).
Proof.
  intros h s u n m l a b D. assert (E : pmr_match s = Some (n, onward (m :: l), a, b)) by (apply pmr_parse; exists (m :: l); auto).
  unfold checkpmr. rewrite E. change (onward (m :: l)) with (58 :: 58 :: m ++ onward l). cbv iota zeta. cbn [skipn].
  rewrite <- app_assoc. unfold named, written. destruct b as [t|]; [reflexivity|]. destruct a as [d|]; [rewrite int10_dval; reflexivity|].
  destruct u; reflexivity.
Qed.
Print Assumptions pmr_request.

(** *** C71: the journey *)
(** An object that can be named: a number, or a name without blanks. *)
Definition proper (u : user) : Prop :=
  match u with UInt v => 0 <= v | UStr t => t <> [] /\ Forall (fun c => ~ blank c) t | UNone => False end.
(** The connects that come of a first one, each relay making the next. *)
Definition leg := (list Z * user * option (list Z))%type.
Inductive legs : leg -> list leg -> Prop :=
| legs_last : forall d u, legs (d, u, None) [(d, u, None)]
| legs_next : forall d u r ls, legs (relay_connect r) ls -> legs (d, u, Some r) ((d, u, Some r) :: ls).
Lemma legs_fun : forall c l1 l2, legs c l1 -> legs c l2 -> l1 = l2.
Proof.
  intros c l1 l2 H. revert l2. induction H as [d u|d u r ls H IH]; intros l2 H2; inversion H2; subst; [reflexivity|]. f_equal. auto.
Qed.
Lemma written_object : forall u, proper u -> exists a b, object_part (colons ++ written u) a b /\ named UNone a b = u.
Proof.
  intros [v|t|] P; cbn [proper] in P; [| |contradiction P].
  - destruct (str10_spec v P) as [N V]. exists (Some (str10 v)), None. split; [|cbn [named]; rewrite V; reflexivity].
    pose proof (op_number [] (str10 v) [] [] (or_introl eq_refl) N (or_introl eq_refl) (or_introl eq_refl)) as O. cbn [app] in O. exact O.
  - destruct P as [NT FT]. exists None, (Some t). split; [|reflexivity].
    assert (W : task_word (chars "TASK=")). { unfold task_word. cbv [chars map list_ascii_of_string nat_of_ascii]. repeat (constructor; [cbv; (left; reflexivity) || (right; repeat split; discriminate)|]). constructor. }
    pose proof (op_task [] (chars "TASK=") t [] (or_introl eq_refl) W NT FT (or_introl eq_refl)) as O. rewrite app_nil_r in O. exact O.
Qed.
(** The request a relay gets is itself a destination. *)
Lemma written_destination : forall m l u, node_word m -> Forall node_word l -> proper u ->
  exists a b, destination (m ++ onward l ++ colons ++ written u) m l a b /\ named UNone a b = u.
Proof.
  intros m l u M F P. destruct (written_object u P) as (a & b & O & E). exists a, b. split; [|exact E].
  split; [exact M|]. split; [exact F|]. exists (colons ++ written u). auto.
Qed.
Lemma legs_of : forall l h s u n a b, destination s n l a b -> proper (named u a b) ->
  exists ls, legs (checkpmr h s u) ls /\
    map fst ls = map (fun m => (m, UInt 123)) (removelast (n :: l)) ++ [(last (n :: l) [], named u a b)] /\
    map (fun c => option_map (hd 0) (snd c)) ls = map (fun i => Some (h + Z.of_nat i)) (seq 0 (length l)) ++ [None].
Proof.
  induction l as [|m l IH]; intros h s u n a b D P.
  - rewrite (pmr_direct h s u n a b D). exists [(n, named u a b, None)]. split; [constructor|]. split; reflexivity.
  - rewrite (pmr_request h s u n m l a b D). destruct D as (N & F & _). inversion F as [|? ? M F2]; subst.
    destruct (written_destination m l (named u a b) M F2 P) as (a' & b' & D' & E').
    rewrite <- E' in P. destruct (IH (h + 1) _ UNone m a' b' D' P) as (ls & L & L1 & L2). rewrite E' in L1.
    eexists. split; [apply legs_next; cbn [relay_connect]; exact L|]. split.
    + cbn [map fst]. rewrite L1. reflexivity.
    + cbn [map snd option_map hd length]. rewrite L2. change (seq 0 (S (length l))) with (0%nat :: seq 1 (length l)). rewrite <- seq_shift. cbn [map app].
      rewrite map_map. f_equal; [f_equal; lia|]. f_equal. apply map_ext. intro i. f_equal. lia.
Qed.
(** The connection goes to each node in the order given, to the relay
    (object 123) at all of them but the last, and there to the object that
    was named; each request carries one more in its hop count. *)
Theorem pmr_journey : forall h s u n l a b, destination s n l a b -> proper (named u a b) ->
  (exists ls, legs (checkpmr h s u) ls) /\
  forall ls, legs (checkpmr h s u) ls ->
    map fst ls = map (fun m => (m, UInt 123)) (removelast (n :: l)) ++ [(last (n :: l) [], named u a b)] /\
    map (fun c => option_map (hd 0) (snd c)) ls = map (fun i => Some (h + Z.of_nat i)) (seq 0 (length l)) ++ [None].
Proof.
  intros h s u n l a b D P. destruct (legs_of l h s u n a b D P) as (ls & L & L1 & L2). split; [exists ls; exact L|].
  intros ls' L'. rewrite (legs_fun _ _ _ L' L). auto.
Qed.
Print Assumptions pmr_journey.

(** What comes back: the relay at the end of a leg answers when it has its own
    answer. *)
Inductive answers : leg -> option (list Z) -> Prop :=
| ans_last : forall d u, answers (d, u, None) None
| ans_next : forall d u r x, answers (relay_connect r) x -> answers (d, u, Some r) (Some (relay_reply r x)).
Lemma answers_fun : forall c x y, answers c x -> answers c y -> x = y.
Proof. intros c x y H. revert y. induction H as [d u|d u r x H IH]; intros y H2; inversion H2; subst; [reflexivity|]. f_equal. f_equal. auto. Qed.
Lemma until_name : forall m r, node_word m -> until_colon (m ++ 58 :: r) = m.
Proof.
  intros m r [_ F]. induction F as [|c m C F IH]; [reflexivity|]. cbn [app until_colon].
  destruct (Z.eqb_spec c 58) as [-> | _]; [unfold letter, digit in C; lia|]. rewrite IH. reflexivity.
Qed.
Lemma until_request : forall m l u, node_word m -> until_colon (m ++ onward l ++ colons ++ written u) = m.
Proof. intros m l u M. destruct l as [|x l]; apply until_name; exact M. Qed.
Lemma after_end : forall s, after_colons (s ++ [58]) = Some [].
Proof. induction s as [|c s IH]; [reflexivity|]. cbn [app after_colons]. rewrite IH. reflexivity. Qed.
Lemma answers_of : forall l h s u n m a b, destination s n (m :: l) a b -> proper (named u a b) ->
  answers (checkpmr h s u) (Some (1 :: flat_map (fun x => x ++ colons) (m :: l))).
Proof.
  induction l as [|m' l IH]; intros h s u n m a b D P; rewrite (pmr_request h s u n m _ a b D); destruct D as (N & F & _); inversion F as [|? ? M F2]; subst;
    destruct (written_destination m _ (named u a b) M F2 P) as (a' & b' & D' & E').
  - assert (A : answers (relay_connect (h :: m ++ onward [] ++ colons ++ written (named u a b))) None).
    { cbn [relay_connect]. rewrite (pmr_direct (h + 1) _ UNone m a' b' D'). constructor. }
    apply (ans_next n (UInt 123)) in A. cbn [relay_reply] in A. rewrite (until_request m [] _ M) in A. cbn [flat_map]. rewrite app_nil_r. exact A.
  - rewrite <- E' in P. pose proof (IH (h + 1) _ UNone m m' a' b' D' P) as A.
    apply (ans_next n (UInt 123) (h :: m ++ onward (m' :: l) ++ colons ++ written (named u a b))) in A.
    cbn [relay_reply] in A. rewrite (until_request m (m' :: l) _ M) in A. cbn [flat_map] in *. rewrite <- !app_assoc in *. exact A.
Qed.
(** The accept data are what follows the last colon. *)
Lemma after_none : forall d, ~ In 58 d -> after_colons d = None.
Proof.
  induction d as [|c d IH]; intro N; [reflexivity|]. cbn [after_colons]. rewrite IH by (intro I; apply N; right; exact I).
  destruct (Z.eqb_spec c 58) as [-> | _]; [contradiction N; left; reflexivity | reflexivity].
Qed.
Theorem pmr_accept_data : forall p d, ~ In 58 d ->
  parse_reply (1 :: p ++ 58 :: d) = Ok (Some d) /\ parse_reply (1 :: d) = Err EIndex /\ forall k, k <> 1 -> parse_reply (k :: p) = Ok None /\ parse_reply [] = Ok None.
Proof.
  intros p d N. split; [|split].
  - unfold parse_reply. assert (A : forall q, after_colons (q ++ 58 :: d) = Some d).
    { induction q as [|c q IH]; cbn [app after_colons]; [rewrite (after_none d N); reflexivity | rewrite IH; reflexivity]. }
    change (1 :: p ++ 58 :: d) with ((1 :: p) ++ 58 :: d). rewrite A. reflexivity.
  - unfold parse_reply. rewrite (after_none (1 :: d)); [reflexivity|]. intros [E | I]; [discriminate E | exact (N I)].
  - intros k K. split; [|reflexivity]. unfold parse_reply. destruct k as [|[q|q|]|q]; try reflexivity. contradiction K; reflexivity.
Qed.
Print Assumptions pmr_accept_data.
(** The client learns of an accept, with the nodes the connection went
    through. *)
Theorem pmr_answer : forall h s u n m l a b x, destination s n (m :: l) a b -> proper (named u a b) -> answers (checkpmr h s u) x ->
  x = Some (1 :: flat_map (fun y => y ++ colons) (m :: l)) /\
  (forall y, x = Some y -> parse_reply y = Ok (Some [])).
Proof.
  intros h s u n m l a b x D P A. pose proof (answers_fun _ _ _ A (answers_of l h s u n m a b D P)) as ->. split; [reflexivity|].
  intros y E. assert (Y : y = 1 :: flat_map (fun y => y ++ colons) (m :: l)) by congruence. rewrite Y. clear E Y.
  assert (X : exists w, flat_map (fun y => y ++ colons) (m :: l) = w ++ [58]).
  { clear. revert m. induction l as [|m' l IH]; intro m; cbn [flat_map].
    - exists (m ++ [58]). rewrite app_nil_r, <- app_assoc. reflexivity.
    - destruct (IH m') as [w E]. cbn [flat_map] in E. rewrite E. exists ((m ++ colons) ++ w). rewrite <- !app_assoc. reflexivity. }
  destruct X as [w ->]. cbn [parse_reply]. change (1 :: w ++ [58]) with ((1 :: w) ++ [58]). rewrite after_end. reflexivity.
Qed.
Print Assumptions pmr_answer.

(** *** C71: the relay *)
(** A message that is passed on. *)
Definition payload (t : mtype) : Prop := t = MData \/ t = MInterrupt.
Inductive passed : revent -> rsend -> Prop :=
| p_in : forall t d, payload t -> passed (RIn t d) (SOut t d)
| p_out : forall t d, payload t -> passed (ROut t d) (SIn t d).
Lemma run_app : forall l1 l2 s, relay_run s (l1 ++ l2) =
  (fst (relay_run (fst (relay_run s l1)) l2), snd (relay_run s l1) ++ snd (relay_run (fst (relay_run s l1)) l2)).
Proof.
  induction l1 as [|e l1 IH]; intros l2 s; cbn [app relay_run fst snd]; [destruct (relay_run s l2); reflexivity|].
  destruct (route s e) as [s1 o1]. rewrite IH. destruct (relay_run s1 l1) as [s2 o2]. cbn [fst snd]. rewrite app_assoc. reflexivity.
Qed.
Lemma ended_quiet : forall l, relay_run Ended l = (Ended, []).
Proof. induction l as [|e l IH]; [reflexivity|]. cbn [relay_run]. replace (route Ended e) with (Ended, @nil rsend) by (destruct e; reflexivity). rewrite IH. reflexivity. Qed.
(** While it relays, everything that comes is passed on to the other side
    unchanged, in order; a disconnect is too, and that ends it: nothing is sent
    after. *)
Theorem pmr_forward : forall evs out, Forall2 passed evs out ->
  relay_run Relaying evs = (Relaying, out) /\
  (forall d rest, relay_run Relaying (evs ++ RIn MDisconnect d :: rest) = (Ended, out ++ [SOut MDisconnect d])) /\
  (forall d rest, relay_run Relaying (evs ++ ROut MDisconnect d :: rest) = (Ended, out ++ [SIn MDisconnect d])).
Proof.
  intros evs out H. assert (R : relay_run Relaying evs = (Relaying, out)).
  { induction H as [|e o evs out P H IH]; [reflexivity|]. cbn [relay_run].
    assert (E : route Relaying e = (Relaying, [o])) by (destruct P as [t d [-> | ->]|t d [-> | ->]]; reflexivity). rewrite E, IH. reflexivity. }
  split; [exact R|]. split; intros d rest; rewrite run_app, R; cbn [fst snd relay_run route]; rewrite ended_quiet; reflexivity.
Qed.
Print Assumptions pmr_forward.
(** Any other end closes both sides; the side that ended by itself is told
    nothing any more. *)
Theorem pmr_end : forall t d rest, ~ payload t -> t <> MDisconnect ->
  (t = MAbort \/ t = MReject -> relay_run Relaying (RIn t d :: rest) = (Ended, [SOut MDisconnect []]) /\
                                relay_run Relaying (ROut t d :: rest) = (Ended, [SIn MDisconnect []])) /\
  (t <> MAbort -> t <> MReject -> relay_run Relaying (RIn t d :: rest) = (Ended, [SIn MDisconnect []; SOut MDisconnect []]) /\
                                relay_run Relaying (ROut t d :: rest) = (Ended, [SIn MDisconnect []; SOut MDisconnect []])).
Proof.
  intros t d rest NP ND. split; [intros [-> | ->] | intros NA NR; destruct t; try (contradiction NP; left; reflexivity); try (contradiction NP; right; reflexivity); try contradiction];
    cbn [relay_run route]; rewrite !ended_quiet; split; reflexivity.
Qed.
Print Assumptions pmr_end.
Lemma until_path : forall path n l a b, destination path n l a b -> ~ In 10 path -> until_colon path = n.
Proof.
  intros path n l a b (N & _ & t & -> & O) NL. destruct l as [|m l]; [|apply until_name; exact N]. cbn [onward flat_map app] in *.
  destruct O as [nl [-> | ->]|q1 q2 nl _ _ _|q1 d q2 nl _ _ _ _|q1 w t nl _ _ _ _ _]; try (apply until_name; exact N).
  - rewrite app_nil_r. destruct N as [_ F]. clear NL. induction F as [|c m K F IH]; [reflexivity|]. cbn [until_colon].
    destruct (Z.eqb_spec c 58) as [-> | _]; [unfold letter, digit in K; lia | rewrite IH; reflexivity].
  - contradiction NL. apply in_or_app. right. left. reflexivity.
Qed.
(** A request that ends here: the relay connects to the node and object it
    names; when that accepts it says so, naming the node, and relays.  When it
    cannot connect it says that, and disconnects. *)
Theorem pmr_last_hop : forall x h path n a b evs, destination path n [] a b -> ~ In 10 path ->
  (forall y out, Forall2 passed evs out ->
     relay_run WConnect (RIn MConnect x :: RIn MData (h :: path) :: RConn true :: ROut MAccept y :: evs) =
     (Relaying, SConnect n (named UNone a b) None :: SIn MData (1 :: n ++ colons) :: out)) /\
  relay_run WConnect (RIn MConnect x :: RIn MData (h :: path) :: RConn false :: evs) =
     (Ended, [SConnect n (named UNone a b) None; SIn MData [2]; SIn MDisconnect []]).
Proof.
  intros x h path n a b evs D NL. assert (C : relay_connect (h :: path) = (n, named UNone a b, None)) by (apply pmr_direct, D).
  pose proof (until_path path n [] a b D NL) as U.
  split; [intros y out H|]; cbn [relay_run route]; rewrite C; cbn [route]; rewrite ?C; cbn [snd route].
  - destruct (pmr_forward evs out H) as [R _]. rewrite R. cbn [relay_reply app]. rewrite U. reflexivity.
  - rewrite ended_quiet. reflexivity.
Qed.
Print Assumptions pmr_last_hop.
(** A request that goes on: it connects to the relay at the next node, with
    the rest of the path and one more hop; what that answers it passes back,
    with the node's name put in front. *)
Theorem pmr_next_hop : forall x h path n m l a b evs w out, destination path n (m :: l) a b -> ~ In 10 path -> Forall2 passed evs out ->
  relay_run WConnect (RIn MConnect x :: RIn MData (h :: path) :: RConn true :: ROut MData (1 :: w ++ colons) :: evs) =
  (Relaying, SConnect n (UInt 123) (Some (h + 1 :: m ++ onward l ++ colons ++ written (named UNone a b))) ::
             SIn MData (1 :: n ++ colons ++ w ++ colons) :: out).
Proof.
  intros x h path n m l a b evs w out D NL H. pose proof (pmr_request (h + 1) path UNone n m l a b D) as C.
  pose proof (until_path path n (m :: l) a b D NL) as U. destruct (pmr_forward evs out H) as [R _].
  assert (P : parse_reply (1 :: w ++ colons) = Ok (Some [])).
  { cbn [parse_reply]. change (1 :: w ++ colons) with (1 :: w ++ [58] ++ [58]). rewrite app_assoc. change (1 :: (w ++ [58]) ++ [58]) with ((1 :: w ++ [58]) ++ [58]).
    rewrite after_end. reflexivity. }
  cbn [relay_run route relay_connect]. rewrite C. cbn [route relay_connect]. rewrite C. cbn [snd route]. rewrite P, R. cbn [relay_reply app]. rewrite U. reflexivity.
Qed.
Print Assumptions pmr_next_hop.
(** *** What the code does otherwise *)
(** FALSE of the code: that a relay accepts the connection.  It never does:
    pmr.py 59 calls [conn.accept] without awaiting it. *)
Lemma route_no_accept : forall s e d, ~ In (SIn MAccept d) (snd (route s e)).
Proof.
  intros s e d H. destruct s as [| |r|r k| |]; destruct e as [t x|ok|t x]; cbn [route] in H; try exact H.
  - destruct t; try (cbn in H; repeat (destruct H as [H | H]; [discriminate H|]); exact H). destruct x as [|h x]; [exact H|].
    unfold relay_connect in H. destruct (checkpmr (h + 1) x UNone) as [[? ?] ?]. destruct H as [H | []]. discriminate H.
  - destruct ok; [exact H|]. destruct H as [H | [H | []]]; discriminate H.
  - destruct k, t; cbn in H; try (destruct (parse_reply x) as [[y|]|]); cbn in H; repeat (destruct H as [H | H]; [discriminate H|]); exact H.
  - destruct t; cbn in H; repeat (destruct H as [H | H]; [discriminate H|]); exact H.
  - destruct t; cbn in H; repeat (destruct H as [H | H]; [discriminate H|]); exact H.
Qed.
Theorem pmr_accept_refuted : forall evs d, ~ In (SIn MAccept d) (snd (relay_run WConnect evs)).
Proof.
  intros evs d. generalize WConnect. induction evs as [|e evs IH]; intros s H; [exact H|]. cbn [relay_run] in H.
  pose proof (route_no_accept s e d) as K. destruct (route s e) as [s1 o1]. specialize (IH s1). destruct (relay_run s1 evs) as [s2 o2]. cbn [snd] in *.
  apply in_app_or in H as [H | H]; auto.
Qed.
Print Assumptions pmr_accept_refuted.
(** So a client that sends its request when it has been accepted, as this
    package's does (connectors.py 229, async_connectors.py 233), gets nowhere. *)
Definition polite (evs : list revent) : Prop :=
  forall l1 d l2, evs = l1 ++ RIn MData d :: l2 -> exists y, In (SIn MAccept y) (snd (relay_run WConnect l1)).
Lemma run_no_data : forall evs s, (forall d, ~ In (RIn MData d) evs) -> s = WConnect \/ s = WRequest \/ s = Ended ->
  forall a b c, ~ In (SConnect a b c) (snd (relay_run s evs)).
Proof.
  induction evs as [|e evs IH]; intros s N S a b c H; [exact H|]. cbn [relay_run] in H.
  assert (R : (fst (route s e) = WConnect \/ fst (route s e) = WRequest \/ fst (route s e) = Ended) /\ ~ In (SConnect a b c) (snd (route s e))).
  { destruct S as [-> | [-> | ->]]; destruct e as [t x|ok|t x]; cbn [route]; try (split; [auto | intros []]).
    - destruct t; cbn [fst]; auto.
    - destruct t; cbn [fst snd]; try (contradiction (N x); left; reflexivity); (split; [auto|]); cbn; intro K; repeat (destruct K as [K | K]; [discriminate K|]); exact K. }
  destruct R as [R1 R2]. destruct (route s e) as [s1 o1]. cbn [fst snd] in R1, R2.
  assert (N' : forall d, ~ In (RIn MData d) evs) by (intros d K; apply (N d); right; exact K).
  specialize (IH s1 N' R1 a b c). destruct (relay_run s1 evs) as [s2 o2]. cbn [snd] in *. apply in_app_or in H as [H | H]; auto.
Qed.
Theorem pmr_stuck_refuted : forall evs, polite evs -> forall a b c, ~ In (SConnect a b c) (snd (relay_run WConnect evs)).
Proof.
  intros evs P. apply run_no_data; [|auto]. intros d K. apply in_split in K as (l1 & l2 & E). destruct (P l1 d l2 E) as [y Y]. apply (pmr_accept_refuted l1 y Y).
Qed.
Print Assumptions pmr_stuck_refuted.
(** FALSE of the code: that a request names the object asked for.  With none
    asked for, it names the task None. *)
Theorem pmr_none_refuted : forall h s n m l, destination s n (m :: l) None None -> checkpmr h s UNone = checkpmr h s (UStr (chars "None")).
Proof. intros h s n m l D. rewrite !(pmr_request h s _ n m l None None D). reflexivity. Qed.
Print Assumptions pmr_none_refuted.
(** A name with a blank in it is not understood by the relay: it tries to
    connect to the whole request as if that were a node. *)
Lemma no_blank : forall s n l a b, destination s n l a b -> ~ In 32 s.
Proof.
  intros s n l a b (N & F & t & -> & O) H.
  assert (W : forall w, node_word w -> ~ In 32 w). { intros w [_ X] Y. rewrite Forall_forall in X. specialize (X 32 Y). unfold letter, digit in X. lia. }
  assert (Q : forall q, quoted q -> ~ In 32 q). { intros q [-> | [-> | ->]] Y; cbn in Y; intuition discriminate. }
  assert (NL : forall q, maybe_newline q -> ~ In 32 q). { intros q [-> | ->] Y; cbn in Y; intuition discriminate. }
  apply in_app_or in H as [H | H]; [apply (W n N H)|]. apply in_app_or in H as [H | H].
  { unfold onward in H. apply in_flat_map in H as (w & Wl & H). rewrite Forall_forall in F. apply in_app_or in H as [H | H]; [cbn in H; intuition discriminate | apply (W w (F w Wl) H)]. }
  assert (C : ~ In 32 colons) by (intro Y; cbn in Y; intuition discriminate).
  destruct O as [nl X|q1 q2 nl X1 X2 X|q1 d q2 nl X1 [_ D] X2 X|q1 w t nl X1 TW _ FT X].
  - apply (NL nl X H).
  - repeat apply in_app_or in H as [H | H]; firstorder.
  - repeat (apply in_app_or in H as [H | H]); [apply (C H) | apply (Q _ X1 H) | | cbn in H; intuition discriminate | apply (Q _ X2 H) | apply (NL _ X H)].
    rewrite Forall_forall in D. specialize (D 32 H). unfold digit in D. lia.
  - repeat (apply in_app_or in H as [H | H]); [apply (C H) | apply (Q _ X1 H) | | | apply (NL _ X H)].
    + clear -TW H. unfold task_word in TW. assert (G : Forall (fun b => b <> 32 /\ b <> 64) (chars "task=")) by (cbv; repeat constructor; discriminate).
      induction TW as [|x y w z E TW IH]; [exact H|]. inversion G as [|? ? G1 G2]; subst. destruct H as [-> | H]; [lia | auto].
    + rewrite Forall_forall in FT. apply (FT 32 H). unfold blank. lia.
Qed.
Theorem pmr_blank_refuted : forall h s t n m l, destination s n (m :: l) None None -> In 32 t ->
  exists path, checkpmr h s (UStr t) = (n, UInt 123, Some (h :: path)) /\ relay_connect (h :: path) = (path, UNone, None) /\ ~ node_word path.
Proof.
  intros h s t n m l D B. exists (m ++ onward l ++ colons ++ written (UStr t)). split; [apply (pmr_request h s (UStr t) n m l None None D)|].
  assert (I : In 32 (m ++ onward l ++ colons ++ written (UStr t))) by (repeat (apply in_or_app; right); exact B).
  split; [|intros [_ X]; rewrite Forall_forall in X; specialize (X 32 I); unfold letter, digit in X; lia].
  cbn [relay_connect]. apply pmr_other. intros n' l' a b D'. apply (no_blank _ _ _ _ _ D' I).
Qed.
Print Assumptions pmr_blank_refuted.
(** A task name in quotes keeps the closing one. *)
Theorem pmr_quote_refuted : forall h u n t, node_word n -> Forall (fun c => ~ blank c) t ->
  checkpmr h (n ++ colons ++ [34] ++ chars "task=" ++ t ++ [34]) u = (n, UStr (t ++ [34]), None).
Proof.
  intros h u n t N F. apply (pmr_direct h _ u n None (Some (t ++ [34]))). split; [exact N|]. split; [constructor|].
  exists (colons ++ [34] ++ chars "task=" ++ t ++ [34]). split; [reflexivity|].
  assert (W : task_word (chars "task=")) by (unfold task_word; cbv; repeat (constructor; [left; reflexivity|]); constructor).
  assert (NT : t ++ [34] <> []) by (destruct t; discriminate).
  assert (FT : Forall (fun c => ~ blank c) (t ++ [34])) by (apply Forall_app; split; [exact F | constructor; [unfold blank; lia | constructor]]).
  pose proof (op_task [34] (chars "task=") (t ++ [34]) [] (or_intror (or_introl eq_refl)) W NT FT (or_introl eq_refl)) as O. rewrite app_nil_r in O. exact O.
Qed.
Print Assumptions pmr_quote_refuted.
(** FALSE of the code: that the client is told why in a reply.  When the last
    node's object rejects, the relay rejects its own, already accepted,
    connection. *)
Theorem pmr_reject_refuted : forall x h path n a b d evs, destination path n [] a b ->
  relay_run WConnect (RIn MConnect x :: RIn MData (h :: path) :: RConn true :: ROut MReject d :: evs) =
  (Ended, [SConnect n (named UNone a b) None; SIn MReject d]).
Proof.
  intros x h path n a b d evs D. assert (C : relay_connect (h :: path) = (n, named UNone a b, None)) by (apply pmr_direct, D).
  cbn [relay_run route]. rewrite C. cbn [route]. rewrite C. cbn [snd route]. rewrite ended_quiet. reflexivity.
Qed.
Print Assumptions pmr_reject_refuted.

(** *** Examples *)
(** A connect through two relays to an object number, in quotes. *)
Definition sample : list Z := chars "abel::1.2::CAIN::" ++ [34] ++ chars "19=" ++ [34].
Example pmr_example_dest : destination sample (chars "abel") [chars "1.2"; chars "CAIN"] (Some (chars "19")) None.
Proof.
  assert (W : forall w, w <> [] -> forallb is_namec w = true -> node_word w).
  { intros w NE B. apply node_word_spec. split; [exact NE|]. apply Forall_forall. rewrite forallb_forall in B. exact B. }
  split; [apply W; [discriminate | reflexivity]|].
  split; [constructor; [apply W; [discriminate | reflexivity]|]; constructor; [apply W; [discriminate | reflexivity]|]; constructor|].
  exists (colons ++ [34] ++ chars "19" ++ [61] ++ [34] ++ []). split; [reflexivity|].
  apply op_number; [right; left; reflexivity | | right; left; reflexivity | left; reflexivity].
  split; [discriminate|]. cbv. repeat (constructor; [split; discriminate|]). constructor.
Qed.
Example pmr_example_trip : proper (named UNone (Some (chars "19")) None) /\
  checkpmr 0 sample UNone = (chars "abel", UInt 123, Some (0 :: chars "1.2::CAIN::19=")) /\
  relay_connect (0 :: chars "1.2::CAIN::19=") = (chars "1.2", UInt 123, Some (1 :: chars "CAIN::19=")) /\
  relay_connect (1 :: chars "CAIN::19=") = (chars "CAIN", UInt 19, None) /\
  relay_reply (0 :: chars "1.2::CAIN::19=") (Some (relay_reply (1 :: chars "CAIN::19=") None)) = 1 :: chars "1.2::CAIN::".
Proof. repeat split; try reflexivity. cbv. discriminate. Qed.
Example pmr_example_relay :
  relay_run WConnect [RIn MConnect []; RIn MData (0 :: chars "CAIN::19="); RConn true; ROut MAccept []; RIn MData [1; 2]; ROut MInterrupt [3]; RIn MDisconnect [0; 0]] =
  (Ended, [SConnect (chars "CAIN") (UInt 19) None; SIn MData (1 :: chars "CAIN::"); SOut MData [1; 2]; SIn MInterrupt [3]; SOut MDisconnect [0; 0]]) /\
  polite [RIn MConnect []; RIn MDisconnect []].
Proof. split; [reflexivity|]. intros [|? [|? [|? ?]]] d l2 E; discriminate E. Qed.
