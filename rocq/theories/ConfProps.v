(** C69: what a configuration file means. *)
From Coq Require Import String Ascii.
From Verif Require Import Base Dict ConfModel.

(** * Specification *)
(** ** Lines *)
Definition blanks (l : list Z) : Prop := Forall (fun c => is_sp c = true) l.
Definition solid (l : list Z) : Prop := Forall (fun c => is_sp c = false) l.
(** [b] is the line [l] without the blanks around it. *)
Definition trimmed (l b : list Z) : Prop :=
  exists u v, l = u ++ b ++ v /\ blanks u /\ blanks v /\ (forall c t, b = c :: t -> is_sp c = false) /\ (forall c t, b = t ++ [c] -> is_sp c = false).
(** Empty lines and comments. *)
Definition ignored (b : list Z) : Prop := b = [] \/ exists t, b = 35 :: t.
(** A line that stands for the file [fn]: "@file"; "word @file", and then "word"
    is put before each line of the file.  In a file that is read that way,
    "@file" is a file read the same way. *)
Inductive indirect : option (list Z) -> list Z -> list Z -> option (list Z) -> Prop :=
  | i_plain : forall fn, fn <> [] -> solid fn -> indirect None (64 :: fn) fn None
  | i_word : forall w u fn, fn <> [] -> w <> [] -> u <> [] -> solid w -> blanks u -> indirect None (w ++ u ++ 64 :: fn) fn (Some w)
  | i_same : forall p fn, fn <> [] -> indirect (Some p) (64 :: fn) fn (Some p).
(** The command on a line. *)
Definition full (pre : option (list Z)) (b : list Z) : list Z := match pre with None => b | Some p => p ++ [32] ++ b end.

(** ** Files *)
(** The commands in the lines of the file [name], files named in them taken in
    place. *)
Inductive expands (fs : list Z -> option (list (list Z))) (name : list Z) (pre : option (list Z)) : list (list Z) -> list (list Z) -> Prop :=
  | x_end : expands fs name pre [] []
  | x_ignored : forall l b t out, trimmed l b -> ignored b -> expands fs name pre t out -> expands fs name pre (l :: t) out
  | x_file : forall l b fn pre1 ls t out1 out, trimmed l b -> ~ ignored b -> indirect pre b fn pre1 -> fs (resolve name fn) = Some ls ->
      expands fs (resolve name fn) pre1 ls out1 -> expands fs name pre t out -> expands fs name pre (l :: t) (out1 ++ out)
  | x_command : forall l b t out, trimmed l b -> ~ ignored b -> (forall fn pre1, ~ indirect pre b fn pre1) -> expands fs name pre t out -> expands fs name pre (l :: t) (full pre b :: out).

(** ** Entries *)
(** [b] says everything [a] says. *)
Definition extends (a b : entry) : Prop := forall k, field a k = VNone \/ field b k = field a k.
Definition same (a b : entry) : Prop := forall k, field b k = field a k.
(** The names under which an entry is known, by kind. *)
Definition when (b : bool) (k : list cval) : option (list cval) := if b then Some k else None.
Definition k_circuit (e : entry) := when (leqb (e_attr e) s_circuit) [field e s_name].
Definition k_logger (e : entry) := when (leqb (e_attr e) s_logging) [field e s_sink; field e s_type].
Definition k_node (e : entry) := when (leqb (e_attr e) s_node) [field e s_name].
Definition k_id (e : entry) := when (leqb (e_attr e) s_node) [field e s_id].
Definition k_oname (e : entry) := when (leqb (e_attr e) s_object && truthy (field e s_name)) [field e s_name].
Definition k_onum (e : entry) := when (leqb (e_attr e) s_object && truthy (field e s_number)) [field e s_number].
(** Entries known under the same name, a later one saying everything an earlier one does. *)
Definition agree (kf : entry -> option (list cval)) (es : list entry) : Prop :=
  forall l1 a l2 b l3 k, es = l1 ++ a :: l2 ++ b :: l3 -> kf a = Some k -> kf b = Some k -> extends a b.
Definition consistent (es : list entry) : Prop :=
  agree k_circuit es /\ agree k_logger es /\ agree k_node es /\ agree k_id es /\ agree k_oname es /\ agree k_onum es.
(** The last entry of the given kind. *)
Definition latest (kf : entry -> option (list cval)) (k : list cval) (es : list entry) (e : entry) : Prop :=
  exists l1 l2, es = l1 ++ e :: l2 /\ kf e = Some k /\ forall x, In x l2 -> kf x <> Some k.
(** A dictionary has, under each name, what the last entry of that name says. *)
Definition holds (d : cdict) (kf : entry -> option (list cval)) (es : list entry) : Prop :=
  (forall k e, latest kf k es e -> exists p, dget ckey_eqb d k = Some p /\ same p e) /\ (forall k p, dget ckey_eqb d k = Some p -> exists e, latest kf k es e).
Definition is_coll (n : list Z) : bool := leqb n s_circuit || leqb n s_logging || leqb n s_node || leqb n s_object.
Definition k_single (e : entry) := when (negb (is_coll (e_attr e))) [VStr (e_attr e)].
Definition mentions (es : list entry) (n : list Z) : Prop := exists e, In e es /\ e_attr e = n.
(** A routing node, a bridge, or only the HTTP and API servers. *)
Definition one_kind (es : list entry) : Prop :=
  let r := mentions es s_routing in let b := mentions es s_bridge in let w := mentions es s_http \/ mentions es s_api in
  r /\ ~ b /\ ~ w \/ ~ r /\ b /\ ~ w \/ ~ r /\ ~ b /\ w.
(** The commands that are given by default parse. *)
Definition defaults_ok (parse : list Z -> res (option entry)) : Prop := forall n, In n [s_nsp; s_session; s_system] -> exists e, parse n = Ok (Some e).

(** * Proofs *)
(** ** Lines *)
Lemma lstrip_spec : forall l, exists u, l = u ++ lstrip l /\ blanks u /\ forall c t, lstrip l = c :: t -> is_sp c = false.
Proof.
  induction l as [|c l (u & A & B & C)]; cbn [lstrip]; [exists []; repeat split; [constructor|discriminate]|].
  destruct (is_sp c) eqn:S.
  - exists (c :: u). repeat split; [cbn [app]; congruence|constructor; auto|exact C].
  - exists []. repeat split; [constructor|]. intros x t E. injection E as <- <-. exact S.
Qed.
Lemma lstrip_id : forall l, (forall c t, l = c :: t -> is_sp c = false) -> lstrip l = l.
Proof. intros [|c t] H; [reflexivity|]. cbn [lstrip]. rewrite (H c t eq_refl). reflexivity. Qed.
Lemma lstrip_app : forall u l, blanks u -> lstrip (u ++ l) = lstrip l.
Proof. induction 1 as [|c u S _ IH]; [reflexivity|]. cbn [lstrip app]. rewrite S. exact IH. Qed.
Lemma strip_trimmed : forall l, trimmed l (strip l).
Proof.
  intros l. unfold strip. destruct (lstrip_spec l) as (u & A & B & C). destruct (lstrip_spec (rev (lstrip l))) as (v & D & E & F).
  set (m := lstrip l) in *. set (r := lstrip (rev m)) in *. assert (M : m = rev r ++ rev v) by (rewrite <- rev_app_distr, <- D, rev_involutive; reflexivity).
  exists u, (rev v). split; [rewrite A, M; reflexivity|]. split; [exact B|]. split; [apply Forall_rev; exact E|]. split.
  - intros c t Q. apply (C c (t ++ rev v)). rewrite M, Q. reflexivity.
  - intros c t Q. apply (F c (rev t)). rewrite <- (rev_involutive r), Q, rev_app_distr. reflexivity.
Qed.
Lemma trimmed_strip : forall l b, trimmed l b -> b = strip l.
Proof.
  intros l b (u & v & -> & B & C & D & E). unfold strip. rewrite lstrip_app by exact B. destruct b as [|c t].
  - cbn [app]. rewrite <- (app_nil_r v), lstrip_app by exact C. reflexivity.
  - rewrite (lstrip_id ((c :: t) ++ v)); [|intros x y Q; cbn [app] in Q; injection Q as <- <-; eapply D; reflexivity].
    rewrite rev_app_distr, lstrip_app by (apply Forall_rev; exact C). rewrite lstrip_id; [rewrite rev_involutive; reflexivity|].
    intros x y Q. apply (E x (rev y)). rewrite <- (rev_involutive (c :: t)), Q. reflexivity.
Qed.
Lemma word1_spec : forall l w r, word1 l = (w, r) -> solid w /\ (l = w /\ r = [] \/ exists u, l = w ++ u ++ r /\ u <> [] /\ blanks u /\ (forall c t, r = c :: t -> is_sp c = false)).
Proof.
  induction l as [|c l IH]; intros w r H; cbn [word1] in H; [injection H as <- <-; split; [constructor|auto]|].
  destruct (is_sp c) eqn:S.
  - injection H as <- <-. split; [constructor|]. right. cbn [lstrip]. rewrite S. destruct (lstrip_spec l) as (u & A & B & C).
    exists (c :: u). repeat split; [cbn [app]; f_equal; exact A|discriminate|constructor; auto|exact C].
  - destruct (word1 l) as [w1 r1] eqn:W. injection H as <- <-. destruct (IH _ _ eq_refl) as (A & [(B & C)|(u & B & C & D & E)]).
    + split; [constructor; auto|]. left. split; [congruence|exact C].
    + split; [constructor; auto|]. right. exists u. repeat split; auto. cbn [app]. congruence.
Qed.
Lemma word1_solid : forall w, solid w -> word1 w = (w, []).
Proof. induction 1 as [|c w S _ IH]; [reflexivity|]. cbn [word1]. rewrite S, IH. reflexivity. Qed.
Lemma word1_app : forall w u r, solid w -> u <> [] -> blanks u -> (forall c t, r = c :: t -> is_sp c = false) -> word1 (w ++ u ++ r) = (w, r).
Proof.
  induction 1 as [|c w S _ IH]; intros U B R.
  - cbn [app]. destruct u as [|x u]; [contradiction|]. cbn [app word1]. pose proof (Forall_inv B) as X. cbn beta in X. rewrite X. f_equal.
    change (x :: u ++ r) with ((x :: u) ++ r). rewrite lstrip_app by exact B. apply lstrip_id. exact R.
  - cbn [app word1]. rewrite S, IH; auto.
Qed.
Definition pre_ok (pre : option (list Z)) : Prop := match pre with Some p => p <> [] /\ solid p | None => True end.
Lemma indirect_pre : forall pre b fn pre1, pre_ok pre -> indirect pre b fn pre1 -> pre_ok pre1.
Proof. intros pre b fn pre1 P H. destruct H; cbn; auto. Qed.
Lemma at_notsp : is_sp 64 = false. Proof. reflexivity. Qed.
Lemma sp32 : blanks [32]. Proof. constructor; [reflexivity|constructor]. Qed.
Lemma classify_spec : forall pre l, pre_ok pre -> let b := strip l in
  match classify pre l with
  | LSkip => ignored b
  | LFile fn pre1 => ~ ignored b /\ indirect pre b fn pre1
  | LCmd x => ~ ignored b /\ x = full pre b /\ forall fn pre1, ~ indirect pre b fn pre1
  end.
Proof.
  intros pre l P b. pose proof (strip_trimmed l) as T. fold b in T. unfold classify. fold b. destruct b as [|c t] eqn:BE; [left; reflexivity|].
  destruct (Z.eqb_spec c 35) as [->|C35]; [right; eauto|].
  assert (NI : ~ ignored (c :: t)) by (intros [X|(y & X)]; [discriminate X|injection X as X _; contradiction]).
  assert (SC : is_sp c = false) by (destruct T as (u & v & _ & _ & _ & D & _); eapply D; reflexivity).
  assert (FU : match pre with Some p => p ++ 32 :: c :: t | None => c :: t end = full pre (c :: t)) by (destruct pre; reflexivity). rewrite FU.
  destruct pre as [p|].
  - destruct P as [P1 P2]. cbn [full]. rewrite (word1_app p [32] (c :: t) P2 ltac:(discriminate) sp32) by (intros x y Q; injection Q as <- <-; exact SC).
    cbn [full]. destruct t as [|x t].
    + split; [exact NI|]. split; [reflexivity|]. intros fn pre1 H. inversion H; subst. contradiction.
    + destruct (Z.eqb_spec c 64) as [->|NE].
      * split; [exact NI|]. apply i_same. discriminate.
      * split; [exact NI|]. split; [reflexivity|]. intros fn pre1 H. inversion H; subst. contradiction.
  - cbn [full]. destruct (word1 (c :: t)) as [w r] eqn:W. pose proof (word1_spec _ _ _ W) as (SW & H). destruct H as [(E & ->)|(u & E & U1 & U2 & U3)].
    + subst w. assert (CMD : ~ (c = 64 /\ t <> []) -> forall fn pre1, ~ indirect None (c :: t) fn pre1).
      { intros N fn pre1 H. inversion H as [fn1 F1 F2|w u fn1 F1 F2 F3 F4 F5 Q0 Q|]; subst; [apply N; auto|].
        assert (X : solid (w ++ u ++ 64 :: fn)) by (rewrite Q; exact SW). apply Forall_app in X as [_ X]. apply Forall_app in X as [X _].
        destruct u as [|y u]; [contradiction|]. pose proof (Forall_inv X) as X1. pose proof (Forall_inv F5) as X2. cbn in X1, X2. congruence. }
      destruct t as [|x t]; [split; [exact NI|]; split; [reflexivity|]; apply CMD; intros [_ X]; contradiction|].
      destruct (Z.eqb_spec c 64) as [->|NE].
      * split; [exact NI|]. apply i_plain; [discriminate|]. inversion SW; assumption.
      * split; [exact NI|]. split; [reflexivity|]. apply CMD. intros [X _]. contradiction.
    + assert (WN : w <> []). { intros ->. cbn [app] in E. destruct u as [|y u]; [contradiction|]. cbn [app] in E. injection E as -> _. pose proof (Forall_inv U2) as X. cbn beta in X. congruence. }
      assert (CMD : (forall y z, r = 64 :: y :: z -> False) -> forall fn pre1, ~ indirect None (c :: t) fn pre1).
      { intros N fn pre1 H. inversion H as [fn1 F1 F2|w2 u2 fn1 F1 F2 F3 F4 F5 Q0 Q|]; subst.
        - rewrite word1_solid in W by (constructor; [reflexivity|exact F2]). injection W as <- <-. rewrite app_nil_r in E. apply (f_equal (@length Z)) in E. rewrite app_length in E. destruct u; [contradiction|cbn [length] in E; lia].
        - rewrite <- Q in W. rewrite (word1_app w2 u2 (64 :: fn) F4 F3 F5) in W by (intros y z X; injection X as <- <-; reflexivity). injection W as <- <-. destruct fn as [|y z]; [contradiction|]. eapply N; reflexivity. }
      destruct r as [|a [|b0 r]].
      * (* the rest is empty only if the line ended in blanks *)
        exfalso. rewrite app_nil_r in E. destruct T as (_ & _ & _ & _ & _ & _ & D). destruct (exists_last U1) as (u1 & y & ->).
        rewrite app_assoc in E. specialize (D y (w ++ u1) E). apply Forall_app in U2 as [_ U2]. pose proof (Forall_inv U2) as X. cbn beta in X. congruence.
      * split; [exact NI|]. split; [reflexivity|]. apply CMD. discriminate.
      * destruct (Z.eqb_spec a 64) as [->|NE].
        -- split; [exact NI|]. rewrite E. apply i_word; auto. discriminate.
        -- split; [exact NI|]. split; [reflexivity|]. apply CMD. intros y z Q. injection Q as -> _ _. contradiction.
Qed.

(** ** Files *)
Section Files.
Variables (fs : list Z -> option (list (list Z))) (parse : list Z -> res (option entry)).
Fixpoint cmds (c : conf) (ok : bool) (out : list (list Z)) : res (conf * bool) :=
  match out with [] => Ok (c, ok) | l :: t => let* (c1, ok1) := command parse c ok l in cmds c1 ok1 t end.
Lemma command_flag : forall c ok l, command parse c ok l = let* (c1, o) := command parse c true l in Ok (c1, o && ok).
Proof.
  intros c ok l. unfold command. destruct (parse l) as [[e|]|x]; cbn [bind]; [|reflexivity|reflexivity].
  destruct (add c e) as [c1 g]. cbn [bind]. rewrite andb_true_l, andb_comm. reflexivity.
Qed.
Lemma cmds_flag : forall out c ok, cmds c ok out = let* (c1, o) := cmds c true out in Ok (c1, o && ok).
Proof.
  induction out as [|l out IH]; intros c ok; cbn [cmds]; [reflexivity|]. rewrite (command_flag c ok l).
  destruct (command parse c true l) as [[c1 o]|x]; cbn [bind]; [|reflexivity].
  rewrite (IH c1 (o && ok)), (IH c1 o). destruct (cmds c1 true out) as [[c2 o2]|x]; cbn [bind]; [rewrite andb_assoc|]; reflexivity.
Qed.
Lemma cmds_app : forall o1 o2 c ok, cmds c ok (o1 ++ o2) = let* (c1, k) := cmds c ok o1 in cmds c1 k o2.
Proof.
  induction o1 as [|l o1 IH]; intros o2 c ok; cbn [cmds app]; [reflexivity|].
  destruct (command parse c ok l) as [[c1 k]|x]; cbn [bind]; [apply IH|reflexivity].
Qed.
Lemma classify_ign : forall pre l b, pre_ok pre -> trimmed l b -> ignored b -> classify pre l = LSkip.
Proof.
  intros pre l b P T I. apply trimmed_strip in T as ->. pose proof (classify_spec pre l P) as H. cbn zeta in H.
  destruct (classify pre l); [reflexivity|destruct H as [H _]; contradiction|destruct H as [H _]; contradiction].
Qed.
Lemma indirect_fun : forall pre b fn pre1 fn2 pre2, pre_ok pre -> indirect pre b fn pre1 -> indirect pre b fn2 pre2 -> fn = fn2 /\ pre1 = pre2.
Proof.
  intros pre b fn pre1 fn2 pre2 P H1 H2. destruct H1 as [fn F1 F2|w u fn F1 F2 F3 F4 F5|p fn F1].
  - inversion H2 as [fn1 G1 G2|w2 u2 fn1 G1 G2 G3 G4 G5 Q0 Q|]; subst; [auto|]. exfalso.
    assert (X : solid (64 :: fn)) by (constructor; [reflexivity|exact F2]). rewrite <- Q in X. apply Forall_app in X as [_ X]. apply Forall_app in X as [X _].
    destruct u2 as [|y u]; [contradiction|]. pose proof (Forall_inv X) as X1. pose proof (Forall_inv G5) as X2. cbn in X1, X2. congruence.
  - assert (W : word1 (w ++ u ++ 64 :: fn) = (w, 64 :: fn)) by (apply word1_app; auto; intros y z X; injection X as <- <-; reflexivity).
    inversion H2 as [fn1 G1 G2 Q0 Q|w2 u2 fn1 G1 G2 G3 G4 G5 Q0 Q|]; subst.
    + exfalso. rewrite <- Q in W. rewrite word1_solid in W by (constructor; [reflexivity|assumption]). discriminate W.
    + rewrite <- Q in W. rewrite word1_app in W by (auto; intros y z X; injection X as <- <-; reflexivity). injection W as <- <-. auto.
  - inversion H2; subst. auto.
Qed.
Lemma classify_ind : forall pre l b fn pre1, pre_ok pre -> trimmed l b -> ~ ignored b -> indirect pre b fn pre1 -> classify pre l = LFile fn pre1.
Proof.
  intros pre l b fn pre1 P T I D. apply trimmed_strip in T as ->. pose proof (classify_spec pre l P) as H. cbn zeta in H.
  destruct (classify pre l); [contradiction| |destruct H as (_ & _ & H); exfalso; eapply H; exact D]. destruct H as [_ H].
  destruct (indirect_fun _ _ _ _ _ _ P H D). congruence.
Qed.
Lemma classify_cmd : forall pre l b, pre_ok pre -> trimmed l b -> ~ ignored b -> (forall fn pre1, ~ indirect pre b fn pre1) -> classify pre l = LCmd (full pre b).
Proof.
  intros pre l b P T I D. apply trimmed_strip in T as ->. pose proof (classify_spec pre l P) as H. cbn zeta in H.
  destruct (classify pre l); [contradiction|destruct H as [_ H]; exfalso; eapply D; exact H|]. destruct H as (_ & -> & _). reflexivity.
Qed.
Lemma scan_forward : forall fuel name pre lines c c1 o, pre_ok pre -> scan fs parse fuel name pre lines c = Ok (c1, o) -> exists out, expands fs name pre lines out /\ cmds c true out = Ok (c1, o).
Proof.
  induction fuel as [|f IH]; intros name pre lines c c1 o P H; [discriminate H|]. cbn [scan] in H. revert c H. generalize true as ok.
  induction lines as [|l t IHl]; intros ok c H; cbn [scan_lines] in H; [injection H as <- <-; exists []; split; [constructor|reflexivity]|].
  pose proof (classify_spec pre l P) as K. cbn zeta in K. destruct (classify pre l) as [|fn pre1|x].
  - destruct (IHl _ _ H) as (out & A & B). exists out. split; [eapply x_ignored; eauto; apply strip_trimmed|exact B].
  - destruct K as [K1 K2]. destruct (fs (resolve name fn)) as [ls|] eqn:F; [|discriminate H].
    destruct (scan fs parse f (resolve name fn) pre1 ls c) as [[c2 o2]|x] eqn:S; cbn [bind] in H; [|discriminate H].
    destruct (IH _ _ _ _ _ _ (indirect_pre _ _ _ _ P K2) S) as (o3 & A & B). destruct (IHl _ _ H) as (out & C & D).
    exists (o3 ++ out). split; [eapply x_file; eauto; apply strip_trimmed|]. rewrite cmds_app, cmds_flag, B. cbn [bind]. exact D.
  - destruct K as (K1 & -> & K2). destruct (command parse c ok (full pre (strip l))) as [[c2 o2]|x] eqn:S; cbn [bind] in H; [|discriminate H].
    destruct (IHl _ _ H) as (out & C & D). exists (full pre (strip l) :: out). split; [apply x_command; auto; apply strip_trimmed|]. cbn [cmds]. rewrite S. exact D.
Qed.
Lemma scan_backward : forall name pre lines out, expands fs name pre lines out -> pre_ok pre ->
  exists n, forall f, (n <= f)%nat -> forall c ok, scan_lines fs parse (scan fs parse f) name pre lines c ok = cmds c ok out.
Proof.
  induction 1 as [name pre|name pre l b t out T I X IH|name pre l b fn pre1 ls t out1 out T I D F X1 IH1 X2 IH2|name pre l b t out T I D X IH]; intros P.
  - exists O. reflexivity.
  - destruct (IH P) as (n & N). exists n. intros f L c ok. cbn [scan_lines]. rewrite (classify_ign pre l b P T I). apply N. exact L.
  - destruct (IH1 (indirect_pre _ _ _ _ P D)) as (n1 & N1). destruct (IH2 P) as (n2 & N2). exists (Nat.max (S n1) n2). intros f L c ok.
    cbn [scan_lines]. rewrite (classify_ind pre l b fn pre1 P T I D), F. destruct f as [|f]; [lia|]. cbn [scan]. rewrite N1 by lia. rewrite cmds_app, (cmds_flag out1 c ok).
    destruct (cmds c true out1) as [[c2 o2]|x]; cbn [bind]; [|reflexivity]. apply (N2 (S f)). lia.
  - destruct (IH P) as (n & N). exists n. intros f L c ok. cbn [scan_lines]. rewrite (classify_cmd pre l b P T I D). cbn [cmds].
    destruct (command parse c ok (full pre b)) as [[c2 o2]|x]; cbn [bind]; [|reflexivity]. apply N. exact L.
Qed.
(** The commands of a file are a function of it. *)
Theorem conf_expands_unique : forall name pre lines o1 o2, pre_ok pre -> expands fs name pre lines o1 -> expands fs name pre lines o2 -> o1 = o2.
Proof.
  intros name pre lines o1 o2 P H. revert o2. induction H as [name pre|name pre l b t out T I X IH|name pre l b fn pre1 ls t out1 out T I D F X1 IH1 X2 IH2|name pre l b t out T I D X IH]; intros o2 H2.
  - inversion H2. reflexivity.
  - apply trimmed_strip in T. inversion H2 as [|l2 b2 t2 out2 T2 I2 Y|l2 b2 fn2 pre2 ls2 t2 oa ob T2 I2 D2 F2 Y1 Y2|l2 b2 t2 out2 T2 I2 D2 Y]; subst; apply trimmed_strip in T2; subst; try contradiction. auto.
  - apply trimmed_strip in T. inversion H2 as [|l2 b2 t2 out2 T2 I2 Y|l2 b2 fn2 pre2 ls2 t2 oa ob T2 I2 D2 F2 Y1 Y2|l2 b2 t2 out2 T2 I2 D2 Y]; subst; apply trimmed_strip in T2; subst; try contradiction.
    + destruct (indirect_fun _ _ _ _ _ _ P D D2) as [<- <-]. rewrite F in F2. injection F2 as <-. f_equal; [apply IH1; auto; eapply indirect_pre; eauto|apply IH2; auto].
    + exfalso. eapply D2. exact D.
  - apply trimmed_strip in T. inversion H2 as [|l2 b2 t2 out2 T2 I2 Y|l2 b2 fn2 pre2 ls2 t2 oa ob T2 I2 D2 F2 Y1 Y2|l2 b2 t2 out2 T2 I2 D2 Y]; subst; apply trimmed_strip in T2; subst; try contradiction.
    + exfalso. eapply D. exact D2.
    + f_equal. auto.
Qed.
End Files.

(** ** Entries *)
Lemma cval_eqb_eq : forall a b, cval_eqb a b = true <-> a = b.
Proof. intros [|x|x] [|y|y]; cbn; split; intros H; try discriminate; try reflexivity; try (apply Z.eqb_eq in H; congruence); try (apply leqb_eq in H; congruence); injection H as ->; [apply Z.eqb_refl|apply leqb_eq; reflexivity]. Qed.
Lemma decides_ckey : decides ckey_eqb.
Proof.
  intros a. induction a as [|x a IH]; intros [|y b]; cbn [ckey_eqb]; split; intros H; try discriminate H; try reflexivity.
  - apply andb_true_iff in H as [H1 H2]. apply cval_eqb_eq in H1. apply IH in H2. congruence.
  - injection H as -> ->. apply andb_true_iff. split; [apply cval_eqb_eq; reflexivity|apply IH; reflexivity].
Qed.
Lemma entry_eqb_same : forall a b, entry_eqb a b = true -> same a b.
Proof.
  intros a b H k. unfold entry_eqb in H. apply andb_true_iff in H as [H1 H2]. rewrite forallb_forall in H1, H2. unfold field at 2.
  destruct (dget leqb (e_fields a) k) as [v|] eqn:E.
  - specialize (H1 _ (dget_in leqb decides_leqb _ _ _ E)). cbn [fst] in H1. unfold field in *. rewrite E in H1. destruct (dget leqb (e_fields b) k) as [w|]; [|discriminate H1]. apply cval_eqb_eq in H1. congruence.
  - unfold field. destruct (dget leqb (e_fields b) k) as [w|] eqn:F; [|reflexivity]. specialize (H2 _ (dget_in leqb decides_leqb _ _ _ F)). cbn [fst] in H2. rewrite E in H2. discriminate H2.
Qed.
Lemma same_extends : forall a b, same a b -> extends a b. Proof. intros a b H k. right. apply H. Qed.
Lemma same_sym : forall a b, same a b -> same b a. Proof. intros a b H k. symmetry. apply H. Qed.
Lemma extends_trans : forall a b c, extends a b -> extends b c -> extends a c.
Proof. intros a b c H1 H2 k. destruct (H1 k) as [A|A]; [auto|]. destruct (H2 k) as [B|B]; [left; congruence|right; congruence]. Qed.
Lemma extends_refl : forall a, extends a a. Proof. intros a k. right. reflexivity. Qed.
Definition clash (a b : entry) (k : list Z) : bool := negb (cval_eqb (field a k) (field b k)) && negb (is_none (field a k)).
Lemma clash_spec : forall a b k, clash a b k = false <-> field a k = VNone \/ field b k = field a k.
Proof.
  intros a b k. unfold clash. rewrite andb_false_iff, !negb_false_iff, cval_eqb_eq. split.
  - intros [H|H]; [auto|left; destruct (field a k); [reflexivity|discriminate H|discriminate H]].
  - intros [-> |H]; auto.
Qed.
Lemma conflict_spec : forall a b, existsb (fun kv : list Z * cval => clash a b (fst kv)) (e_fields a) = false <-> extends a b.
Proof.
  intros a b. split.
  - intros H k. apply clash_spec. destruct (clash a b k) eqn:Q; [|reflexivity]. exfalso.
    destruct (dget leqb (e_fields a) k) as [v|] eqn:E.
    + apply (dget_in leqb decides_leqb) in E. assert (X : existsb (fun kv : list Z * cval => clash a b (fst kv)) (e_fields a) = true) by (apply existsb_exists; eexists; split; [exact E|exact Q]). congruence.
    + unfold clash, field in Q. rewrite E in Q. cbn [is_none negb] in Q. rewrite andb_false_r in Q. discriminate Q.
  - intros H. destruct (existsb _ _) eqn:Q; [|reflexivity]. apply existsb_exists in Q as (kv & _ & Q). assert (X := proj2 (clash_spec a b (fst kv)) (H (fst kv))). congruence.
Qed.
Lemma list_eq_nil_or_last : forall A (l : list A), l = [] \/ exists m x, l = m ++ [x].
Proof. intros A l. destruct l as [|a l] using rev_ind; eauto. Qed.
Lemma option_dec : forall (kf : entry -> option (list cval)) v k, kf v = Some k \/ kf v <> Some k.
Proof.
  intros kf v k. destruct (kf v) as [x|]; [|right; discriminate]. destruct (ckey_eqb x k) eqn:E; [left; apply decides_ckey in E; congruence|].
  right. intros H. injection H as ->. rewrite (decides_refl _ _ decides_ckey) in E. discriminate E.
Qed.
(** One checkdict. *)
Lemma latest_fun : forall kf k es a b, latest kf k es a -> latest kf k es b -> a = b.
Proof.
  intros kf k es a b (l1 & l2 & -> & A & N) (m1 & m2 & E & B & M). revert m1 E. induction l1 as [|x l1 IH]; intros [|y m1] E; cbn [app] in E; injection E as E1 E2.
  - congruence.
  - subst. exfalso. apply (N b); [apply in_or_app; right; left; reflexivity|exact B].
  - subst. exfalso. apply (M a); [apply in_or_app; right; left; reflexivity|exact A].
  - eapply IH. exact E2.
Qed.
Lemma latest_snoc : forall kf k es v e, latest kf k (es ++ [v]) e <-> (kf v = Some k /\ e = v) \/ (kf v <> Some k /\ latest kf k es e).
Proof.
  intros kf k es v e. split.
  - intros (l1 & l2 & E & A & N). destruct (list_eq_nil_or_last _ l2) as [-> |(l3 & x & ->)].
    + apply app_inj_tail in E as [-> ->]. left. auto.
    + rewrite app_comm_cons, app_assoc in E. apply app_inj_tail in E as [-> ->]. right. split; [apply N; apply in_or_app; right; left; reflexivity|].
      exists l1, l3. repeat split; auto. intros y Y. apply N. apply in_or_app. auto.
  - intros [[A ->]|[A (l1 & l2 & -> & B & N)]].
    + exists es, []. repeat split; auto.
    + exists l1, (l2 ++ [v]). rewrite <- app_assoc. repeat split; auto. intros x X. apply in_app_or in X as [X|[<-|[]]]; auto.
Qed.
Lemma latest_exists : forall kf k es a, In a es -> kf a = Some k -> exists e, latest kf k es e.
Proof.
  intros kf k es. induction es as [|v es IH] using rev_ind; intros a H K; [destruct H|].
  destruct (option_dec kf v k) as [Q|Q]; [exists v; apply latest_snoc; auto|].
  apply in_app_or in H as [H|[->|[]]]; [|contradiction]. destruct (IH _ H K) as (e & E). exists e. apply latest_snoc. auto.
Qed.
Lemma agree_snoc : forall kf es v, agree kf (es ++ [v]) <-> agree kf es /\ forall a k, In a es -> kf a = Some k -> kf v = Some k -> extends a v.
Proof.
  intros kf es v. split.
  - intros H. split.
    + intros l1 a l2 b l3 k E. apply (H l1 a l2 b (l3 ++ [v]) k). rewrite E, <- app_assoc. cbn [app]. rewrite <- app_assoc. reflexivity.
    + intros a k I K V. apply in_split in I as (l1 & l2 & ->). apply (H l1 a l2 v [] k); auto. rewrite <- app_assoc. reflexivity.
  - intros [H1 H2] l1 a l2 b l3 k E A B. destruct (list_eq_nil_or_last _ l3) as [-> |(l4 & x & ->)].
    + rewrite app_comm_cons, app_assoc in E. apply app_inj_tail in E as [-> ->]. apply (H2 a k); auto. apply in_or_app. right. left. reflexivity.
    + replace (l1 ++ a :: l2 ++ b :: l4 ++ [x]) with ((l1 ++ a :: l2 ++ b :: l4) ++ [x]) in E by (rewrite <- app_assoc; cbn [app]; rewrite <- app_assoc; reflexivity).
      apply app_inj_tail in E as [-> ->]. eapply H1; eauto.
Qed.
Lemma agree_latest : forall kf es k a e, agree kf es -> In a es -> kf a = Some k -> latest kf k es e -> extends a e.
Proof.
  intros kf es k a e H I K (l1 & l2 & -> & B & N). apply in_app_or in I as [I|[->|I]]; [|apply extends_refl|exfalso; eapply N; eauto].
  apply in_split in I as (m1 & m2 & ->). apply (H m1 a m2 e l2 k); auto. rewrite <- app_assoc. reflexivity.
Qed.
Lemma check_set_spec : forall d kf es v k, holds d kf es -> agree kf es -> kf v = Some k ->
  match check_set d k v with Some d1 => agree kf (es ++ [v]) /\ holds d1 kf (es ++ [v]) | None => ~ agree kf (es ++ [v]) end.
Proof.
  intros d kf es v k [H1 H2] AG K. unfold check_set.
  assert (PUT : holds (dset ckey_eqb d k v) kf (es ++ [v])).
  { split.
    - intros k2 e L. apply latest_snoc in L as [[Q ->]|[Q L]].
      + assert (k2 = k) by congruence. subst. exists v. rewrite (dget_dset_same ckey_eqb decides_ckey). split; [reflexivity|intros x; reflexivity].
      + rewrite (dget_dset_other ckey_eqb decides_ckey) by (intros ->; contradiction). auto.
    - intros k2 p E. rewrite (dget_dset ckey_eqb decides_ckey) in E. destruct (ckey_eqb k2 k) eqn:Q.
      + apply decides_ckey in Q. subst. exists v. apply latest_snoc. auto.
      + destruct (H2 _ _ E) as (e & L). exists e. apply latest_snoc. right. split; [|exact L]. intros X. assert (k2 = k) by congruence. subst. rewrite (decides_refl _ _ decides_ckey) in Q. discriminate Q. }
  destruct (dget ckey_eqb d k) as [prev|] eqn:E.
  - destruct (H2 _ _ E) as (e & L). destruct (H1 _ _ L) as (p & P1 & P2). rewrite E in P1. injection P1 as <-.
    assert (EXT : extends prev v -> agree kf (es ++ [v])).
    { intros X. apply agree_snoc. split; [exact AG|]. intros a k2 I A V. assert (k2 = k) by congruence. subst.
      eapply extends_trans; [eapply agree_latest; eauto|]. eapply extends_trans; [apply same_extends, same_sym; exact P2|exact X]. }
    destruct (entry_eqb prev v) eqn:Q.
    + apply entry_eqb_same in Q. split; [apply EXT, same_extends; exact Q|]. split.
      * intros k2 x Lx. apply latest_snoc in Lx as [[W ->]|[W Lx]]; [|apply H1; exact Lx]. assert (k2 = k) by congruence. subst. exists prev. auto.
      * intros k2 x Ex. destruct (H2 _ _ Ex) as (y & Ly). destruct (option_dec kf v k2) as [W|W]; [exists v|exists y]; apply latest_snoc; auto.
    + change (existsb (fun kv : list Z * cval => let ov := field prev (fst kv) in negb (cval_eqb ov (field v (fst kv))) && negb (is_none ov)) (e_fields prev))
        with (existsb (fun kv : list Z * cval => clash prev v (fst kv)) (e_fields prev)).
      destruct (existsb _ _) eqn:C.
      * intros X. apply agree_snoc in X as [_ X]. assert (Y : extends prev v).
        { eapply extends_trans; [apply same_extends; exact P2|]. destruct L as (l1 & l2 & -> & LB & _). apply (X e k); auto. apply in_or_app. right. left. reflexivity. }
        apply conflict_spec in Y. assert (F : true = false) by (rewrite <- C; exact Y). discriminate F.
      * apply conflict_spec in C. split; [apply EXT; exact C|exact PUT].
  - split; [|exact PUT]. apply agree_snoc. split; [exact AG|]. intros a k2 I A V. assert (k2 = k) by congruence. subst.
    destruct (latest_exists _ _ _ _ I A) as (e & L). destruct (H1 _ _ L) as (p & P1 & _). congruence.
Qed.
Lemma skip_spec : forall d kf es v, holds d kf es -> kf v = None -> holds d kf (es ++ [v]) /\ (agree kf es <-> agree kf (es ++ [v])).
Proof.
  intros d kf es v [H1 H2] K. split; [split|].
  - intros k e L. apply latest_snoc in L as [[W _]|[_ L]]; [congruence|auto].
  - intros k p E. destruct (H2 _ _ E) as (e & L). exists e. apply latest_snoc. right. split; [congruence|exact L].
  - rewrite agree_snoc. split; [|tauto]. intros A. split; [exact A|]. intros a k _ _ V. congruence.
Qed.
(** The configuration. *)
Definition singles_are (si0 si : dict (list Z) entry) (es : list entry) : Prop :=
  forall n, (exists e, latest k_single [VStr n] es e /\ dget leqb si n = Some e) \/ ((forall e, In e es -> k_single e <> Some [VStr n]) /\ dget leqb si n = dget leqb si0 n).
Definition good (si0 : dict (list Z) entry) (c : conf) (es : list entry) : Prop :=
  holds (circuits c) k_circuit es /\ holds (loggers c) k_logger es /\ holds (nodes c) k_node es /\ holds (ids c) k_id es /\ holds (onames c) k_oname es /\ holds (onums c) k_onum es /\
  objects c = filter (fun e => leqb (e_attr e) s_object) es /\ singles_are si0 (singles c) es.
Lemma singles_skip : forall si0 si es e, singles_are si0 si es -> k_single e = None -> singles_are si0 si (es ++ [e]).
Proof.
  intros si0 si es e H K n. destruct (H n) as [(x & L & E)|[N E]].
  - left. exists x. split; [apply latest_snoc; right; split; [congruence|exact L]|exact E].
  - right. split; [|exact E]. intros y Y. apply in_app_or in Y as [Y|[<-|[]]]; [auto|congruence].
Qed.
Lemma singles_put : forall si0 si es e, singles_are si0 si es -> k_single e = Some [VStr (e_attr e)] -> singles_are si0 (dset leqb si (e_attr e) e) (es ++ [e]).
Proof.
  intros si0 si es e H K n. rewrite (dget_dset leqb decides_leqb). destruct (leqb n (e_attr e)) eqn:Q.
  - apply leqb_eq in Q. subst n. left. exists e. split; [apply latest_snoc; auto|reflexivity].
  - assert (NE : k_single e <> Some [VStr n]). { rewrite K. intros X. injection X as X. subst n. rewrite (decides_refl _ _ decides_leqb) in Q. discriminate Q. }
    destruct (H n) as [(x & L & E)|[N E]].
    + left. exists x. split; [apply latest_snoc; auto|exact E].
    + right. split; [|exact E]. intros y Y. apply in_app_or in Y as [Y|[<-|[]]]; auto.
Qed.
Lemma filter_snoc : forall A (f : A -> bool) l x, filter f (l ++ [x]) = filter f l ++ (if f x then [x] else []).
Proof. intros A f l x. rewrite filter_app. cbn [filter]. destruct (f x); reflexivity. Qed.
Lemma add_spec : forall si0 c es e, good si0 c es -> consistent es ->
  let '(c1, g) := add c e in if g then consistent (es ++ [e]) /\ good si0 c1 (es ++ [e]) else ~ consistent (es ++ [e]).
Proof.
  intros si0 c es e G CO. destruct c as [ci lo no id on nu ob si]. destruct G as (G1 & G2 & G3 & G4 & G5 & G6 & G7 & G8). cbn [circuits loggers nodes ids onames onums objects singles] in *.
  destruct CO as (A1 & A2 & A3 & A4 & A5 & A6).
  assert (OB : forall b, leqb (e_attr e) s_object = b -> filter (fun e => leqb (e_attr e) s_object) (es ++ [e]) = ob ++ (if b then [e] else [])) by (intros b <-; rewrite filter_snoc, G7; reflexivity).
  unfold add, consistent, good.
  destruct (leqb (e_attr e) s_circuit) eqn:Q1.
  { apply leqb_eq in Q1. assert (K1 : k_circuit e = Some [field e s_name]) by (unfold k_circuit; rewrite Q1; reflexivity).
    assert (K2 : k_logger e = None) by (unfold k_logger; rewrite Q1; reflexivity). assert (K3 : k_node e = None) by (unfold k_node; rewrite Q1; reflexivity).
    assert (K4 : k_id e = None) by (unfold k_id; rewrite Q1; reflexivity). assert (K5 : k_oname e = None) by (unfold k_oname; rewrite Q1; reflexivity). assert (K6 : k_onum e = None) by (unfold k_onum; rewrite Q1; reflexivity).
    assert (K7 : k_single e = None) by (unfold k_single; rewrite Q1; reflexivity). rewrite (OB false) by (rewrite Q1; reflexivity). rewrite app_nil_r.
    destruct (skip_spec _ _ _ _ G2 K2) as [B2 C2], (skip_spec _ _ _ _ G3 K3) as [B3 C3], (skip_spec _ _ _ _ G4 K4) as [B4 C4], (skip_spec _ _ _ _ G5 K5) as [B5 C5], (skip_spec _ _ _ _ G6 K6) as [B6 C6].
    pose proof (check_set_spec _ _ _ _ _ G1 A1 K1) as S. destruct (check_set ci [field e s_name] e) as [d|]; [destruct S as [S1 S2]|tauto]. cbn [circuits loggers nodes ids onames onums objects singles]. pose proof (singles_skip _ _ _ _ G8 K7). tauto. }
  destruct (leqb (e_attr e) s_logging) eqn:Q2.
  { apply leqb_eq in Q2. assert (K2 : k_logger e = Some [field e s_sink; field e s_type]) by (unfold k_logger; rewrite Q2; reflexivity).
    assert (K1 : k_circuit e = None) by (unfold k_circuit; rewrite Q2; reflexivity). assert (K3 : k_node e = None) by (unfold k_node; rewrite Q2; reflexivity).
    assert (K4 : k_id e = None) by (unfold k_id; rewrite Q2; reflexivity). assert (K5 : k_oname e = None) by (unfold k_oname; rewrite Q2; reflexivity). assert (K6 : k_onum e = None) by (unfold k_onum; rewrite Q2; reflexivity).
    assert (K7 : k_single e = None) by (unfold k_single; rewrite Q2; reflexivity). rewrite (OB false) by (rewrite Q2; reflexivity). rewrite app_nil_r.
    destruct (skip_spec _ _ _ _ G1 K1) as [B1 C1], (skip_spec _ _ _ _ G3 K3) as [B3 C3], (skip_spec _ _ _ _ G4 K4) as [B4 C4], (skip_spec _ _ _ _ G5 K5) as [B5 C5], (skip_spec _ _ _ _ G6 K6) as [B6 C6].
    pose proof (check_set_spec _ _ _ _ _ G2 A2 K2) as S. destruct (check_set lo _ e) as [d|]; [destruct S as [S1 S2]|tauto]. cbn [circuits loggers nodes ids onames onums objects singles]. pose proof (singles_skip _ _ _ _ G8 K7). tauto. }
  destruct (leqb (e_attr e) s_node) eqn:Q3.
  { apply leqb_eq in Q3. assert (K3 : k_node e = Some [field e s_name]) by (unfold k_node; rewrite Q3; reflexivity). assert (K4 : k_id e = Some [field e s_id]) by (unfold k_id; rewrite Q3; reflexivity).
    assert (K1 : k_circuit e = None) by (unfold k_circuit; rewrite Q3; reflexivity). assert (K2 : k_logger e = None) by (unfold k_logger; rewrite Q3; reflexivity).
    assert (K5 : k_oname e = None) by (unfold k_oname; rewrite Q3; reflexivity). assert (K6 : k_onum e = None) by (unfold k_onum; rewrite Q3; reflexivity).
    assert (K7 : k_single e = None) by (unfold k_single; rewrite Q3; reflexivity). rewrite (OB false) by (rewrite Q3; reflexivity). rewrite app_nil_r.
    destruct (skip_spec _ _ _ _ G1 K1) as [B1 C1], (skip_spec _ _ _ _ G2 K2) as [B2 C2], (skip_spec _ _ _ _ G5 K5) as [B5 C5], (skip_spec _ _ _ _ G6 K6) as [B6 C6].
    pose proof (check_set_spec _ _ _ _ _ G4 A4 K4) as S. destruct (check_set id _ e) as [d|]; [destruct S as [S1 S2]|tauto].
    pose proof (check_set_spec _ _ _ _ _ G3 A3 K3) as T. destruct (check_set no _ e) as [d2|]; [destruct T as [T1 T2]|tauto]. cbn [circuits loggers nodes ids onames onums objects singles]. pose proof (singles_skip _ _ _ _ G8 K7). tauto. }
  destruct (leqb (e_attr e) s_object) eqn:Q4.
  { apply leqb_eq in Q4. assert (K1 : k_circuit e = None) by (unfold k_circuit; rewrite Q4; reflexivity). assert (K2 : k_logger e = None) by (unfold k_logger; rewrite Q4; reflexivity).
    assert (K3 : k_node e = None) by (unfold k_node; rewrite Q4; reflexivity). assert (K4 : k_id e = None) by (unfold k_id; rewrite Q4; reflexivity).
    assert (K7 : k_single e = None) by (unfold k_single; rewrite Q4; reflexivity). rewrite (OB true eq_refl).
    destruct (skip_spec _ _ _ _ G1 K1) as [B1 C1], (skip_spec _ _ _ _ G2 K2) as [B2 C2], (skip_spec _ _ _ _ G3 K3) as [B3 C3], (skip_spec _ _ _ _ G4 K4) as [B4 C4].
    assert (S : match (if truthy (field e s_name) then check_set on [field e s_name] e else Some on) with Some d1 => agree k_oname (es ++ [e]) /\ holds d1 k_oname (es ++ [e]) | None => ~ agree k_oname (es ++ [e]) end).
    { destruct (truthy (field e s_name)) eqn:TR.
      - apply check_set_spec; auto. unfold k_oname. rewrite Q4, TR. reflexivity.
      - assert (K : k_oname e = None) by (unfold k_oname; rewrite Q4, TR; reflexivity). destruct (skip_spec _ _ _ _ G5 K) as [B C]. tauto. }
    assert (T : match (if truthy (field e s_number) then check_set nu [field e s_number] e else Some nu) with Some d1 => agree k_onum (es ++ [e]) /\ holds d1 k_onum (es ++ [e]) | None => ~ agree k_onum (es ++ [e]) end).
    { destruct (truthy (field e s_number)) eqn:TR.
      - apply check_set_spec; auto. unfold k_onum. rewrite Q4, TR. reflexivity.
      - assert (K : k_onum e = None) by (unfold k_onum; rewrite Q4, TR; reflexivity). destruct (skip_spec _ _ _ _ G6 K) as [B C]. tauto. }
    destruct (if truthy (field e s_name) then check_set on [field e s_name] e else Some on) as [d|]; [destruct S as [S1 S2]|tauto].
    destruct (if truthy (field e s_number) then check_set nu [field e s_number] e else Some nu) as [d2|]; [destruct T as [T1 T2]|tauto].
    cbn [circuits loggers nodes ids onames onums objects singles]. pose proof (singles_skip _ _ _ _ G8 K7). tauto. }
  assert (K1 : k_circuit e = None) by (unfold k_circuit; rewrite Q1; reflexivity). assert (K2 : k_logger e = None) by (unfold k_logger; rewrite Q2; reflexivity).
  assert (K3 : k_node e = None) by (unfold k_node; rewrite Q3; reflexivity). assert (K4 : k_id e = None) by (unfold k_id; rewrite Q3; reflexivity).
  assert (K5 : k_oname e = None) by (unfold k_oname; rewrite Q4; reflexivity). assert (K6 : k_onum e = None) by (unfold k_onum; rewrite Q4; reflexivity).
  assert (K7 : k_single e = Some [VStr (e_attr e)]) by (unfold k_single, is_coll; rewrite Q1, Q2, Q3, Q4; reflexivity). rewrite (OB false) by reflexivity. rewrite app_nil_r.
  destruct (skip_spec _ _ _ _ G1 K1) as [B1 C1], (skip_spec _ _ _ _ G2 K2) as [B2 C2], (skip_spec _ _ _ _ G3 K3) as [B3 C3], (skip_spec _ _ _ _ G4 K4) as [B4 C4], (skip_spec _ _ _ _ G5 K5) as [B5 C5], (skip_spec _ _ _ _ G6 K6) as [B6 C6].
  cbn [circuits loggers nodes ids onames onums objects singles]. pose proof (singles_put _ _ _ _ G8 K7). tauto.
Qed.
Lemma consistent_app : forall es l, consistent (es ++ l) -> consistent es.
Proof.
  intros es l. revert es. induction l as [|x l IH]; intros es H; [rewrite app_nil_r in H; exact H|].
  replace (es ++ x :: l) with ((es ++ [x]) ++ l) in H by (rewrite <- app_assoc; reflexivity). apply IH in H. unfold consistent in *. rewrite !agree_snoc in H. tauto.
Qed.
Definition reads (parse : list Z -> res (option entry)) (out : list (list Z)) (es : list entry) : Prop := Forall2 (fun l e => parse l = Ok (Some e)) out es.
Lemma reads_fun : forall parse out a b, reads parse out a -> reads parse out b -> a = b.
Proof. intros parse out a b H. revert b. induction H as [|l e out es P _ IH]; intros b H2; inversion H2 as [|l2 e2 o2 es2 P2 R2]; subst; [reflexivity|]. f_equal; [congruence|auto]. Qed.
Lemma cmds_spec : forall parse si0 out c ok done c1 o1, cmds parse c ok out = Ok (c1, o1) ->
  (ok = true -> good si0 c done /\ consistent done) ->
  (o1 = true -> ok = true /\ exists es, reads parse out es /\ good si0 c1 (done ++ es) /\ consistent (done ++ es)) /\
  (ok = true -> forall es, reads parse out es -> consistent (done ++ es) -> o1 = true).
Proof.
  intros parse si0. induction out as [|l out IH]; intros c ok done c1 o1 H W; cbn [cmds] in H.
  - injection H as <- <-. split; [|auto]. intros E. split; [exact E|]. exists []. rewrite app_nil_r. split; [constructor|apply W; exact E].
  - unfold command in H. destruct (parse l) as [[e|]|x] eqn:P; cbn [bind] in H; [| |discriminate H].
    + pose proof (fun A B => add_spec si0 c done e A B) as S. destruct (add c e) as [c2 g]. cbn [bind] in H. 
      destruct (IH c2 (ok && g) (done ++ [e]) c1 o1 H) as [X Y].
      { intros E. apply andb_true_iff in E as [E1 E2]. destruct (W E1) as [W1 W2]. specialize (S W1 W2). rewrite E2 in S. tauto. }
      split.
      * intros E. destruct (X E) as (X1 & es & X2 & X3 & X4). apply andb_true_iff in X1 as [X1 _]. split; [exact X1|]. exists (e :: es). rewrite <- app_assoc in X3, X4. split; [constructor; auto|auto].
      * intros E es R C. inversion R as [|l2 e2 o2 es2 P2 R2]; subst. assert (e2 = e) by congruence. subst e2. destruct (W eq_refl) as [W1 W2]. specialize (S W1 W2).
        replace (done ++ e :: es2) with ((done ++ [e]) ++ es2) in C by (rewrite <- app_assoc; reflexivity). destruct g; [|exfalso; apply S; eapply consistent_app; exact C]. apply (Y eq_refl es2); auto.
    + destruct (IH c false done c1 o1 H ltac:(discriminate)) as [X _]. split; [intros E; destruct (X E) as [E2 _]; discriminate E2|]. intros _ es R. inversion R as [|l2 e2 o2 es2 P2 R2]; subst. congruence.
Qed.
Lemma leqb_neq : forall a b, a <> b -> leqb a b = false. Proof. intros a b N. destruct (leqb a b) eqn:E; [apply leqb_eq in E; contradiction|reflexivity]. Qed.
Lemma defaults_spec : forall parse, defaults_ok parse -> exists si, fold_left (default1 parse) required (Ok []) = Ok si /\ forall n, In n required <-> dget leqb si n <> None.
Proof.
  intros parse D. destruct (D s_nsp ltac:(cbn; auto)) as (e1 & P1). destruct (D s_session ltac:(cbn; auto)) as (e2 & P2). destruct (D s_system ltac:(cbn; auto)) as (e3 & P3).
  unfold required. cbn [fold_left]. unfold default1. cbn [bind]. rewrite P1. cbn [bind]. rewrite P2. cbn [bind]. rewrite P3. eexists. split; [reflexivity|]. intros n.
  rewrite !(dget_dset leqb decides_leqb). split.
  - intros [<-|[<-|[<-|[]]]]; vm_compute; discriminate.
  - destruct (leqb n s_system) eqn:A; [apply leqb_eq in A; subst; cbn; auto|]. destruct (leqb n s_session) eqn:B; [apply leqb_eq in B; subst; cbn; auto|].
    destruct (leqb n s_nsp) eqn:C; [apply leqb_eq in C; subst; cbn; auto|]. intros X. contradiction.
Qed.
Lemma k_single_attr : forall e n, k_single e = Some [VStr n] <-> e_attr e = n /\ is_coll n = false.
Proof.
  intros e n. unfold k_single, when. destruct (is_coll (e_attr e)) eqn:C; cbn [negb]; split.
  - discriminate.
  - intros [<- X]. congruence.
  - intros H. injection H as <-. auto.
  - intros [<- _]. reflexivity.
Qed.
Lemma has_spec : forall si0 c es n, good si0 c es -> is_coll n = false -> (has c n = true <-> mentions es n \/ dget leqb si0 n <> None).
Proof.
  intros si0 c es n (_ & _ & _ & _ & _ & _ & _ & G) C. unfold has. destruct (G n) as [(e & L & E)|[N E]]; rewrite E.
  - split; [|auto]. intros _. left. destruct L as (l1 & l2 & -> & K & _). apply k_single_attr in K as [K _]. exists e. split; [apply in_or_app; right; left; reflexivity|exact K].
  - split.
    + intros H. right. destruct (dget leqb si0 n); [discriminate|discriminate H].
    + intros [(e & I & A)|H]; [exfalso; apply (N e I); apply k_single_attr; auto|]. destruct (dget leqb si0 n); [reflexivity|contradiction].
Qed.
Lemma one_cases : forall a b c : bool, (one a + one b + one c =? 1) = true <-> (b = true /\ a <> true /\ c <> true) \/ (b <> true /\ a = true /\ c <> true) \/ (b <> true /\ a <> true /\ c = true).
Proof. intros [] [] []; cbn; intuition discriminate. Qed.
Lemma final_spec : forall si0 c es, good si0 c es -> (forall n, In n required <-> dget leqb si0 n <> None) ->
  (forallb (has c) required && (one (has c s_bridge) + one (has c s_routing) + one (has c s_http || has c s_api) =? 1) = true <-> one_kind es).
Proof.
  intros si0 c es G D. assert (NR : forall n, ~ In n required -> is_coll n = false -> (has c n = true <-> mentions es n)).
  { intros n N C. rewrite (has_spec _ _ _ _ G C). rewrite <- D. tauto. }
  assert (F : forallb (has c) required = true). { apply forallb_forall. intros n I. apply (has_spec _ _ _ _ G); [|right; apply D; exact I]. destruct I as [<-|[<-|[<-|[]]]]; reflexivity. }
  rewrite F, andb_true_l, one_cases, orb_true_iff.
  rewrite (NR s_bridge), (NR s_routing), (NR s_http), (NR s_api) by (reflexivity || (intros [X|[X|[X|[]]]]; discriminate X)). unfold one_kind. cbn zeta. tauto.
Qed.
Lemma good_empty : forall si, good si (empty_conf si) [].
Proof.
  intros si. assert (H : forall kf, holds [] kf []). { intros kf. split; [intros k e (l1 & l2 & E & _); destruct l1; discriminate E|intros k p E; discriminate E]. }
  unfold good, empty_conf. cbn [circuits loggers nodes ids onames onums objects singles]. repeat split; try apply H. intros n. right. split; [intros e []|reflexivity].
Qed.
Lemma consistent_nil : consistent [].
Proof. unfold consistent, agree. repeat split; intros l1 a l2 b l3 k E; destruct l1; discriminate E. Qed.

(** * C69 *)
(** A file whose commands can all be split into words is accepted or refused;
    it is accepted exactly if each command is understood, no command
    contradicts an earlier one about the same thing, and one kind of system is
    described. *)
Theorem conf_accepted : forall fs parse name lines out, defaults_ok parse -> expands fs name None lines out -> (forall l, In l out -> exists p, parse l = Ok p) ->
  exists n, forall fuel, (n <= fuel)%nat -> exists r, load fs parse fuel name lines = Ok r /\ (r <> None <-> exists es, reads parse out es /\ consistent es /\ one_kind es).
Proof.
  intros fs parse name lines out D X P. destruct (defaults_spec _ D) as (si & S1 & S2). destruct (scan_backward fs parse _ _ _ _ X I) as (n & N). exists (S n). intros fuel L.
  destruct fuel as [|f]; [lia|]. unfold load. rewrite S1. cbn [bind scan]. rewrite (N f ltac:(lia)).
  assert (C : forall l c ok, (forall x, In x l -> exists p, parse x = Ok p) -> exists c1 o1, cmds parse c ok l = Ok (c1, o1)).
  { induction l as [|x l IH]; intros c ok H; cbn [cmds]; [eauto|]. unfold command. destruct (H x (or_introl eq_refl)) as (p & ->). cbn [bind].
    destruct p as [e|]; [destruct (add c e) as [c2 g]; cbn [bind]|cbn [bind]]; apply IH; intros y Y; apply H; right; exact Y. }
  destruct (C out (empty_conf si) true P) as (c1 & o1 & E). rewrite E. cbn [bind].
  destruct (cmds_spec parse si out _ _ [] _ _ E (fun _ => conj (good_empty si) consistent_nil)) as [W1 W2]. cbn [app] in W1, W2. destruct o1; cbn [negb].
  - destruct (W1 eq_refl) as (_ & es & R & G & CO). pose proof (final_spec _ _ _ G S2) as F. destruct (forallb (has c1) required && _) eqn:Q.
    + eexists. split; [reflexivity|]. split; [|discriminate]. intros _. exists es. split; [exact R|]. split; [exact CO|]. apply F. reflexivity.
    + eexists. split; [reflexivity|]. split; [intros Y; contradiction|]. intros (es2 & R2 & _ & K). rewrite <- (reads_fun _ _ _ _ R R2) in K. apply F in K. discriminate K.
  - eexists. split; [reflexivity|]. split; [intros Y; contradiction|]. intros (es2 & R2 & CO & K). specialize (W2 eq_refl es2 R2 CO). discriminate W2.
Qed.
(** What is then known: under each name, what the last entry of that name says;
    all objects; the last of the other elements. *)
Theorem conf_content : forall fs parse fuel name lines c, defaults_ok parse -> load fs parse fuel name lines = Ok (Some c) ->
  exists out es, expands fs name None lines out /\ reads parse out es /\ consistent es /\ one_kind es /\
    holds (circuits c) k_circuit es /\ holds (loggers c) k_logger es /\ holds (nodes c) k_node es /\ objects c = filter (fun e => leqb (e_attr e) s_object) es /\
    (forall n e, latest k_single [VStr n] es e -> dget leqb (singles c) n = Some e) /\
    (forall n, ~ mentions es n -> dget leqb (singles c) n <> None -> In n [s_nsp; s_session; s_system]) /\ (forall n, In n [s_nsp; s_session; s_system] -> dget leqb (singles c) n <> None).
Proof.
  intros fs parse fuel name lines c D H. destruct (defaults_spec _ D) as (si & S1 & S2). unfold load in H. rewrite S1 in H. cbn [bind] in H.
  destruct (scan fs parse fuel name None lines (empty_conf si)) as [[c1 o1]|x] eqn:S; cbn [bind] in H; [|discriminate H]. destruct o1; cbn [negb] in H; [|discriminate H].
  destruct (scan_forward fs parse fuel name None lines _ _ _ I S) as (out & X & E). destruct (cmds_spec parse si out _ _ [] _ _ E (fun _ => conj (good_empty si) consistent_nil)) as [W1 _].
  destruct (W1 eq_refl) as (_ & es & R & G & CO). cbn [app] in G, CO. pose proof (final_spec _ _ _ G S2) as F. destruct (forallb (has c1) required && _) eqn:Q; [|discriminate H]. injection H as <-.
  pose proof G as (G1 & G2 & G3 & G4 & G5 & G6 & G7 & G8). exists out, es. split; [exact X|]. split; [exact R|]. split; [exact CO|]. split; [apply F; reflexivity|].
  split; [exact G1|]. split; [exact G2|]. split; [exact G3|]. split; [exact G7|]. split; [|split].
  - intros n e L. destruct (G8 n) as [(x & LX & EX)|[N _]]; [rewrite EX; f_equal; eapply latest_fun; eauto|]. destruct L as (l1 & l2 & -> & K & _). exfalso. apply (N e); [apply in_or_app; right; left; reflexivity|exact K].
  - intros n N HN. apply S2. destruct (G8 n) as [(x & LX & EX)|[_ EX]]; [|congruence]. exfalso. apply N. destruct LX as (l1 & l2 & -> & K & _). apply k_single_attr in K as [K _]. exists x. split; [apply in_or_app; right; left; reflexivity|exact K].
  - intros n IN. destruct (G8 n) as [(x & LX & EX)|[_ EX]]; [congruence|]. rewrite EX. apply S2. exact IN.
Qed.
(** Node names and node addresses belong to each other one to one. *)
Lemma pair_extends : forall kf es a b k, agree kf es -> In a es -> In b es -> kf a = Some k -> kf b = Some k -> extends a b \/ extends b a.
Proof.
  intros kf es a b k H IA IB A B. apply in_split in IA as (l1 & l2 & ->). apply in_app_or in IB as [IB|[<-|IB]]; [|left; apply extends_refl|].
  - right. apply in_split in IB as (m1 & m2 & ->). apply (H m1 b m2 a l2 k); auto. rewrite <- app_assoc. reflexivity.
  - left. apply in_split in IB as (m1 & m2 & ->). apply (H l1 a m1 b m2 k); auto.
Qed.
Theorem conf_nodes : forall fs parse fuel name lines c, defaults_ok parse -> load fs parse fuel name lines = Ok (Some c) ->
  (forall l e, parse l = Ok (Some e) -> e_attr e = s_node -> field e s_id <> VNone /\ field e s_name <> VNone) ->
  forall k1 k2 p1 p2, dget ckey_eqb (nodes c) k1 = Some p1 -> dget ckey_eqb (nodes c) k2 = Some p2 ->
  k1 = [field p1 s_name] /\ (field p1 s_id = field p2 s_id <-> field p1 s_name = field p2 s_name).
Proof.
  intros fs parse fuel name lines c D H PN k1 k2 p1 p2 E1 E2. destruct (conf_content _ _ _ _ _ _ D H) as (out & es & _ & R & CO & _ & _ & _ & (N1 & N2) & _).
  destruct CO as (_ & _ & A3 & A4 & _).
  assert (AT : forall e, In e es -> exists l, parse l = Ok (Some e)). { intros e I. clear -R I. induction R as [|l x out es P _ IH]; [destruct I|]. destruct I as [<-|I]; eauto. }
  assert (G : forall k p, dget ckey_eqb (nodes c) k = Some p -> exists e, In e es /\ e_attr e = s_node /\ k = [field e s_name] /\ same p e).
  { intros k p E. destruct (N2 _ _ E) as (e & L). destruct (N1 _ _ L) as (q & Q1 & Q2). assert (q = p) by congruence. subst q. exists e. destruct L as (l1 & l2 & -> & K & _).
    unfold k_node, when in K. destruct (leqb (e_attr e) s_node) eqn:Q; [|discriminate K]. apply leqb_eq in Q. injection K as <-. split; [apply in_or_app; right; left; reflexivity|auto]. }
  destruct (G _ _ E1) as (e1 & I1 & B1 & C1 & F1). destruct (G _ _ E2) as (e2 & I2 & B2 & C2 & F2).
  split; [rewrite C1, (F1 s_name); reflexivity|]. rewrite <- !F1, <- !F2.
  destruct (AT _ I1) as (x1 & P1). destruct (AT _ I2) as (x2 & P2). destruct (PN _ _ P1 B1) as [M1 M2]. destruct (PN _ _ P2 B2) as [M3 M4]. split; intros Q.
  - assert (K1 : k_id e1 = Some [field e1 s_id]) by (unfold k_id; rewrite B1; reflexivity). assert (K2 : k_id e2 = Some [field e1 s_id]) by (unfold k_id; rewrite B2, Q; reflexivity).
    destruct (pair_extends _ _ _ _ _ A4 I1 I2 K1 K2) as [X|X]; destruct (X s_name); congruence.
  - assert (K1 : k_node e1 = Some [field e1 s_name]) by (unfold k_node; rewrite B1; reflexivity). assert (K2 : k_node e2 = Some [field e1 s_name]) by (unfold k_node; rewrite B2, Q; reflexivity).
    destruct (pair_extends _ _ _ _ _ A3 I1 I2 K1 K2) as [X|X]; destruct (X s_id); congruence.
Qed.
(** Where a file named in another file is looked for. *)
Lemma drop_base_app : forall b r, Forall (fun c => c <> 47) b -> drop_base (b ++ r) = drop_base r.
Proof. induction 1 as [|c b N _ IH]; [reflexivity|]. cbn [app drop_base]. destruct (Z.eqb_spec c 47); [contradiction|exact IH]. Qed.
Theorem conf_resolve : forall base fn d x, Forall (fun c => c <> 47) base ->
  resolve base fn = fn /\ resolve (47 :: base) fn = (if match fn with c :: _ => c =? 47 | [] => false end then fn else 47 :: fn) /\
  (x <> 47 -> resolve (d ++ x :: 47 :: base) fn = if match fn with c :: _ => c =? 47 | [] => false end then fn else d ++ x :: 47 :: fn).
Proof.
  intros base fn d x B. assert (BR : Forall (fun c => c <> 47) (rev base)) by (apply Forall_rev; exact B). unfold resolve, dirname. split; [|split].
  - rewrite <- (app_nil_r (rev base)), drop_base_app by exact BR. cbn [drop_base forallb rev]. unfold join. cbn [rev]. destruct (match fn with [] => false | c :: _ => c =? 47 end); reflexivity.
  - cbn [rev]. rewrite drop_base_app by exact BR. cbn [drop_base]. change (47 =? 47) with true. cbn iota. cbn [forallb]. change (47 =? 47) with true. cbn [andb rev app]. unfold join. cbn [rev app]. change (47 =? 47) with true. cbn iota.
    destruct (match fn with [] => false | c :: _ => c =? 47 end); reflexivity.
  - intros NE. rewrite rev_app_distr. cbn [rev]. rewrite <- !app_assoc. rewrite drop_base_app by exact BR. cbn [app drop_base]. change (47 =? 47) with true. cbn iota. cbn [forallb]. change (47 =? 47) with true.
    assert (NX : 47 =? x = false) by lia. rewrite NX. cbn [andb]. cbn [drop_slash]. change (47 =? 47) with true. cbn iota. assert (NY : x =? 47 = false) by lia. rewrite NY.
    unfold join. cbn [rev]. rewrite rev_involutive, rev_app_distr. cbn [rev app]. rewrite NY. destruct (match fn with [] => false | c :: _ => c =? 47 end); [reflexivity|]. rewrite <- app_assoc. reflexivity.
Qed.
(** A file that names itself is read for ever. *)
Theorem conf_cycle : forall fs parse name l b fn rest fuel, defaults_ok parse -> trimmed l b -> indirect None b fn None -> resolve name fn = name -> fs name = Some (l :: rest) ->
  load fs parse fuel name (l :: rest) = Err EDiverge.
Proof.
  intros fs parse name l b fn rest fuel D T X R F. destruct (defaults_spec _ D) as (si & S1 & _). unfold load. rewrite S1. cbn [bind]. generalize (empty_conf si). clear S1 si.
  assert (NI : ~ ignored b) by (inversion X; subst; intros [Y|(y & Y)]; discriminate Y).
  assert (G : forall k c, scan fs parse k name None (l :: rest) c = Err EDiverge).
  { induction k as [|f IH]; intros c; [reflexivity|]. cbn [scan scan_lines]. rewrite (classify_ind None l b fn None I T NI X), R, F, IH. reflexivity. }
  intros c. rewrite G. reflexivity.
Qed.
(** The words: commands and attributes. *)
Definition chars (s : string) : list Z := map (fun a => Z.of_nat (nat_of_ascii a)) (list_ascii_of_string s).
Theorem conf_words :
  [s_circuit; s_logging; s_node; s_object; s_routing; s_bridge; s_http; s_api; s_nsp; s_session; s_system; s_name; s_id; s_type; s_number; s_sink] =
  map chars ["circuit"; "logging"; "node"; "object"; "routing"; "bridge"; "http"; "api"; "nsp"; "session"; "system"; "name"; "id"; "type"; "number"; "sink_node"]%string.
Proof. reflexivity. Qed.
(** Objects without number have number 0, and this is no number that two of
    them share; likewise an empty name. *)
Theorem conf_object_keys : forall e, e_attr e = s_object ->
  (k_onum e = None <-> field e s_number = VNone \/ field e s_number = VInt 0 \/ field e s_number = VStr []) /\
  (k_oname e = None <-> field e s_name = VNone \/ field e s_name = VInt 0 \/ field e s_name = VStr []).
Proof.
  intros e A. unfold k_onum, k_oname. rewrite A. change (leqb s_object s_object) with true. cbn [andb]. unfold when.
  assert (T : forall v, truthy v = false <-> v = VNone \/ v = VInt 0 \/ v = VStr []).
  { intros [ |n|s]; cbn [truthy].
    - tauto.
    - destruct (Z.eqb_spec n 0) as [-> | N]; cbn [negb]; [tauto|]. split; [discriminate|]. intros [X | [X | X]]; [discriminate X | injection X as X; contradiction | discriminate X].
    - destruct s as [|c s]; [change (leqb [] []) with true; cbn [negb]; tauto|]. change (leqb (c :: s) []) with false. cbn [negb]. split; [discriminate|]. intros [X | [X | X]]; discriminate X. }
  split; rewrite <- T; destruct (truthy _); split; congruence.
Qed.
Print Assumptions conf_accepted.
Print Assumptions conf_content.
Print Assumptions conf_nodes.
Print Assumptions conf_resolve.
Print Assumptions conf_cycle.

(** * Cases *)
(** A parser for the cases: "node N name", where N is a digit, with an optional
    verification value; "routing N"; "nsp", "session", "system". *)
Fixpoint ws (cur : list Z) (l : list Z) : list (list Z) :=
  match l with [] => match cur with [] => [] | _ => [rev cur] end | c :: t => if c =? 32 then match cur with [] => ws [] t | _ => rev cur :: ws [] t end else ws (c :: cur) t end.
Definition s_verif : list Z := [118].
Definition ex_parse (l : list Z) : res (option entry) :=
  Ok match ws [] l with
     | [w] => if leqb w s_nsp || leqb w s_session || leqb w s_system then Some (mkE w []) else None
     | [w; [d]] => if leqb w s_routing then Some (mkE w [(s_id, VInt (d - 48))]) else None
     | [w; [d]; n] => if leqb w s_node then Some (mkE w [(s_id, VInt (d - 48)); (s_name, VStr n); (s_verif, VNone)]) else None
     | [w; [d]; n; v] => if leqb w s_node then Some (mkE w [(s_id, VInt (d - 48)); (s_name, VStr n); (s_verif, VStr v)]) else None
     | _ => None
     end.
Definition ex_fs (n : list Z) : option (list (list Z)) :=
  if leqb n [100; 47; 110] then Some [[35; 32; 120]; [49; 32; 65]; [32; 64; 109; 10]; [49; 32; 65; 32; 80]]     (* d/n: "# x", "1 A", " @m", "1 A P" *)
  else if leqb n [100; 47; 109] then Some [[50; 32; 66]]                                                        (* d/m: "2 B" *)
  else if leqb n [100; 47; 97; 32; 98] then Some []                                                             (* d/a b *)
  else None.
Definition ex_top : list Z := [100; 47; 99].                                                                    (* d/c *)
(** "routing 1", "node @n": the nodes of two files are known, with the value
    that was added by the second entry for node 1. *)
Example conf_example :
  match load ex_fs ex_parse 5 ex_top [s_routing ++ [32; 49]; s_node ++ [32; 64; 110]] with
  | Ok (Some c) => map (fun p => (fst p, field (snd p) s_id, field (snd p) s_verif)) (nodes c) = [([VStr [65]], VInt 1, VStr [80]); ([VStr [66]], VInt 2, VNone)]
  | _ => False
  end.
Proof. vm_compute. reflexivity. Qed.
(** An address given to two names is refused. *)
Example conf_conflict : load ex_fs ex_parse 5 ex_top [s_routing ++ [32; 49]; s_node ++ [32; 49; 32; 65]; s_node ++ [32; 49; 32; 66]] = Ok None.
Proof. vm_compute. reflexivity. Qed.
(** Not what a user expects: a second "routing" replaces the first without a
    word; a file whose name has a blank can be named after a word only. *)
Theorem conf_repeat_refuted : exists c e, load ex_fs ex_parse 5 ex_top [s_routing ++ [32; 49]; s_routing ++ [32; 50]] = Ok (Some c) /\ dget leqb (singles c) s_routing = Some e /\ field e s_id = VInt 2.
Proof. vm_compute. eexists. eexists. repeat split. Qed.
Theorem conf_blank_refuted : load ex_fs ex_parse 5 ex_top [s_routing ++ [32; 49]; [64; 97; 32; 98]] = Ok None /\
  exists c, load ex_fs ex_parse 5 ex_top [s_routing ++ [32; 49]; s_node ++ [32; 64; 97; 32; 98]] = Ok (Some c).
Proof. vm_compute. split; [reflexivity|eexists; reflexivity]. Qed.
Lemma ex_defaults : defaults_ok ex_parse.
Proof. intros n [<-|[<-|[<-|[]]]]; vm_compute; eexists; reflexivity. Qed.
