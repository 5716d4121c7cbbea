(** C62: who has the console.

    The specification reads the user off the messages and the seconds that
    passed: the first station that asked with the right password, until it
    releases the console or sends no command for 15 seconds. *)
From Verif Require Import Base CarrierModel ConsModel.

(** * Specification *)
Definition is_req (ver : list Z) (e : cev) : option (list Z) := match e with CPkt u b _ _ _ => if leqb b (13 :: ver) then Some u else None | _ => None end.
Definition is_rel (u : list Z) (e : cev) : bool := match e with CPkt v b _ _ _ => leqb v u && leqb b [15] | _ => false end.
Definition is_cmd (u : list Z) (e : cev) : bool := match e with CPkt v (c :: _ :: _) _ _ _ => leqb v u && (c =? 17) | _ => false end.
(** The user and the seconds since they were last heard. *)
Definition who1 (ver : list Z) (s : option (list Z * Z)) (e : cev) : option (list Z * Z) :=
  match s with
  | None => match is_req ver e with Some u => Some (u, 0) | None => None end
  | Some (u, n) =>
    match e with
    | CTick => if n + 1 <? 15 then Some (u, n + 1) else None
    | _ => if is_rel u e then None else if is_cmd u e then Some (u, 0) else s
    end
  end.
Definition who (ver : list Z) (h : list cev) : option (list Z * Z) := fold_left (who1 ver) h None.
Definition works (e : cev) : Prop := match e with CPkt _ _ fork _ _ => fork = true | _ => True end.
Definition user (st : cons) : option (list Z) := option_map c_user (c_cur st).
Fixpoint ticks (h : list cev) : Z := match h with [] => 0 | CTick :: t => 1 + ticks t | _ :: t => ticks t end.
(** Output of the session, as opposed to answers to a RequestId. *)
Definition session (o : cout) : bool := match o with CSysId _ _ _ _ => false | _ => true end.
(** The commands of u, without those that repeat the bit of the one before. *)
Fixpoint fresh (u : list Z) (bit : Z) (h : list cev) : list (list Z) :=
  match h with
  | [] => []
  | CPkt v (17 :: f :: p) _ _ _ :: t => if leqb v u && negb (f mod 2 =? bit) then p :: fresh u (f mod 2) t else fresh u bit t
  | _ :: t => fresh u bit t
  end.
Fixpoint entered (o : list cout) : list Z := match o with [] => [] | CTerm d :: t | CLost d :: t => d ++ entered t | _ :: t => entered t end.

(** * Proofs *)
Definition up (v : server) : Prop :=
  sup v = true /\ (sseq v = 0 \/ sseq v = 1) /\ match sresp v with Some q => fst q = sseq v | None => True end.
Definition agrees (st : cons) (s : option (list Z * Z)) : Prop :=
  match s, c_cur st with
  | None, None => True
  | Some (u, n), Some c => c_user c = u /\ c_pty c = true /\ up (c_srv c) /\ c_due c = Some (c_now st - n + 15) /\ 0 <= n < 15
  | _, _ => False
  end.
Lemma leqb_no : forall a b, a <> b -> leqb a b = false.
Proof. intros a b N. destruct (leqb a b) eqn:E; [|reflexivity]. apply leqb_eq in E. contradiction. Qed.
Lemma leqb_yes : forall a, leqb a a = true.
Proof. intros a. apply leqb_eq. reflexivity. Qed.
(* what is parsed, by the bytes *)
Lemma parse_cases : forall b, 
  match cons_parse b with
  | None => (forall v, zlen v = 8 -> b <> 13 :: v) /\ b <> [15] /\ (forall f p, b <> 17 :: f :: p)
  | Some (MRequest v) => b = 13 :: v /\ zlen v = 8
  | Some MRelease => b = [15]
  | Some (MCommand q p) => exists f, b = 17 :: f :: p /\ q = f mod 2
  | Some (MRequestId r) => exists x y z, b = [5; x; y; z] /\ r = y + 256 * z
  end.
Proof.
  intros [|c t]; cbn [cons_parse]; [repeat split; congruence|].
  destruct (Z.eqb_spec c 13) as [-> |N13].
  { destruct (zlen t =? 8) eqn:L; [split; [reflexivity|lia]|]. repeat split; try congruence. intros v Z E. injection E as -> . lia. }
  destruct (Z.eqb_spec c 15) as [-> |N15]. { destruct t; [reflexivity|]. repeat split; congruence. }
  destruct (Z.eqb_spec c 17) as [-> |N17]. { destruct t; [repeat split; congruence|]. eauto. }
  destruct (Z.eqb_spec c 5) as [-> |N5]; [|repeat split; congruence].
  destruct t as [|x [|y [|z [|? ?]]]]; try (repeat split; congruence). eauto 8.
Qed.
Lemma not_req : forall ver u b f w r, zlen ver = 8 -> (forall v, zlen v = 8 -> b <> 13 :: v) -> is_req ver (CPkt u b f w r) = None.
Proof. intros. cbn [is_req]. rewrite leqb_no by auto. reflexivity. Qed.
Lemma command_up : forall v f p w r v2 fs o, up v -> s_command v (f mod 2, p) w r = (v2, fs, o) ->
  up v2 /\ (sseq v2 = f mod 2 /\ ((fs = [] /\ sresp v = None /\ f mod 2 = sseq v) \/ (exists d, fs = [(f mod 2, d)] /\ sresp v2 = Some (f mod 2, d)))).
Proof.
  intros v f p w r v2 fs o (U1 & U2 & U3) S. unfold s_command in S. rewrite U1 in S. cbn [negb fst snd] in S. cbn zeta in S.
  destruct (Z.eqb_spec (f mod 2) (sseq v)) as [E|N].
  - injection S as <- <- <- . split; [repeat split; assumption|]. split; [symmetry; exact E|]. destruct (sresp v) as [[q d]|]; [|left; auto]. cbn [fst] in U3. subst q. right. rewrite E. eauto.
  - assert (X : Z.lxor (sseq v) 1 = f mod 2). { pose proof (Z.mod_pos_bound f 2 ltac:(lia)). destruct U2 as [U|U]; rewrite U in *; [change (Z.lxor 0 1) with 1|change (Z.lxor 1 1) with 0]; lia. }
    rewrite X in S. injection S as <- <- <- . unfold up. cbn [sup sseq sresp fst]. pose proof (Z.mod_pos_bound f 2 ltac:(lia)). repeat split; try lia. right. eauto.
Qed.
Lemma step_agrees : forall ver st s e, zlen ver = 8 -> agrees st s -> works e ->
  exists st2 o, cstep (Some ver) st e = Ok (st2, o) /\ agrees st2 (who1 ver s e).
Proof.
  intros ver [now cur] s e L A W. destruct e as [src b fork w r|].
  2:{ (* a second *)
    cbn [cstep]. unfold ctick. cbn [c_now c_cur]. unfold agrees in A. cbn [c_cur c_now] in A. destruct s as [[u n]|], cur as [c|]; try contradiction; cbn [who1 is_req].
    - destruct A as (A1 & A2 & A3 & A4 & A5). rewrite A4. replace (now - n + 15 <=? now + 1) with (negb (n + 1 <? 15)) by lia. destruct (n + 1 <? 15) eqn:Q; cbn [negb]; eexists _, _; (split; [reflexivity|]); unfold agrees; cbn [c_cur c_now]; [|exact I].
      refine (conj A1 (conj A2 (conj A3 (conj _ _)))); [rewrite A4; f_equal; lia|lia].
    - eexists _, _. split; [reflexivity|exact I]. }
  cbn [works] in W. subst fork. cbn [cstep c_now c_cur]. unfold cpkt. pose proof (parse_cases b) as P. unfold agrees in A. cbn [c_cur c_now] in A.
  destruct (cons_parse b) as [[v| |q p|rc]|].
  - (* request *)
    destruct P as [-> LV]. destruct s as [[u n]|], cur as [c|]; try contradiction; cbn [who1].
    + eexists _, _. split; [reflexivity|]. cbn [is_rel is_cmd]. rewrite (leqb_no (13 :: v) [15]) by congruence. rewrite andb_false_r.
      replace (match v with [] => false | _ :: _ => leqb src u && (13 =? 17) end) with false by (destruct v; [reflexivity|rewrite andb_false_r; reflexivity]). exact A.
    + cbn [is_req]. destruct (leqb ver v) eqn:E.
      * apply leqb_eq in E. subst v. rewrite leqb_yes. eexists _, _. split; [reflexivity|]. unfold agrees, copen. cbn [c_cur c_now c_user c_pty c_srv c_due server0 sup sseq sresp]. unfold up. cbn [server0 sup sseq sresp]. repeat split; auto; try lia. f_equal. unfold reservation_timer. lia.
      * rewrite (leqb_no (13 :: v) (13 :: ver)); [eexists _, _; split; [reflexivity|exact I]|]. intros X. injection X as -> . rewrite leqb_yes in E. discriminate.
  - (* release *)
    subst b. destruct s as [[u n]|], cur as [c|]; try contradiction; cbn [who1 is_req is_rel].
    + destruct A as (A1 & A2 & A3 & A4 & A5). unfold cserve. rewrite A1. replace (leqb [15] [15]) with true by reflexivity. rewrite andb_true_r. destruct (leqb src u); cbn [negb bind]; eexists _, _; (split; [reflexivity|]); [exact I|].
      cbn [is_cmd]. unfold agrees. cbn [c_cur c_now]. auto.
    + eexists _, _. cbn [bind]. split; [reflexivity|]. rewrite leqb_no by congruence. exact I.
  - (* command *)
    destruct P as (f & -> & -> ). destruct s as [[u n]|], cur as [c|]; try contradiction; cbn [who1 is_req is_rel is_cmd].
    + destruct A as (A1 & A2 & A3 & A4 & A5). unfold cserve. rewrite A1, A2. cbn [negb andb]. rewrite (leqb_no (17 :: f :: p) [15]) by congruence. rewrite andb_false_r. replace (17 =? 17) with true by reflexivity. rewrite andb_true_r.
      destruct (leqb src u); cbn [negb bind].
      * destruct (s_command (c_srv c) (f mod 2, p) w r) as [[v fs] o] eqn:S. cbn [bind]. eexists _, _. split; [reflexivity|]. unfold agrees. cbn [c_cur c_now c_user c_pty c_srv c_due].
        refine (conj eq_refl (conj eq_refl (conj (proj1 (command_up _ _ _ _ _ _ _ _ A3 S)) (conj _ _)))); [f_equal; unfold reservation_timer; lia|lia].
      * eexists _, _. split; [reflexivity|]. unfold agrees. cbn [c_cur c_now]. auto.
    + eexists _, _. cbn [bind]. split; [reflexivity|]. rewrite leqb_no by congruence. exact I.
  - (* request id *)
    destruct P as (x & y & z & -> & -> ). destruct s as [[u n]|], cur as [c|]; try contradiction; cbn [who1 is_req is_rel is_cmd].
    + destruct A as (A1 & A2 & A3 & A4 & A5). unfold cserve. rewrite (leqb_no [5; x; y; z] [15]) by congruence. rewrite !andb_false_r. destruct (leqb src (c_user c)); cbn [negb bind]; eexists _, _; (split; [reflexivity|]); unfold agrees; cbn [c_cur c_now]; auto.
    + cbn [bind]. eexists _, _. split; [reflexivity|]. rewrite leqb_no by congruence. exact I.
  - destruct P as (P1 & P2 & P3). eexists _, _. split; [reflexivity|]. destruct s as [[u n]|], cur as [c|]; try contradiction; cbn [who1].
    + replace (is_rel u (CPkt src b true w r)) with false by (cbn [is_rel]; rewrite (leqb_no b [15]) by exact P2; rewrite andb_false_r; reflexivity).
      replace (is_cmd u (CPkt src b true w r)) with false; [exact A|]. cbn [is_cmd]. destruct b as [|c0 [|f p]]; try reflexivity. destruct (Z.eqb_spec c0 17) as [-> |]; [exfalso; apply (P3 f p); reflexivity|]. rewrite andb_false_r. reflexivity.
    + rewrite not_req by assumption. exact I.
Qed.
Lemma run_agrees : forall ver h st s, zlen ver = 8 -> agrees st s -> Forall works h ->
  exists st2 o, crun (Some ver) st h = Ok (st2, o) /\ agrees st2 (fold_left (who1 ver) h s).
Proof.
  intros ver. induction h as [|e h IH]; intros st s L A W; cbn [crun fold_left]; [eauto|].
  destruct (step_agrees ver st s e L A (Forall_inv W)) as (st1 & o1 & E1 & A1). rewrite E1. cbn [bind].
  destruct (IH st1 _ L A1 (Forall_inv_tail W)) as (st2 & o2 & E2 & A2). rewrite E2. cbn [bind]. eauto.
Qed.
Lemma agrees_user : forall st s, agrees st s -> user st = option_map fst s.
Proof. intros st s A. unfold agrees in A. unfold user. destruct s as [[u n]|], (c_cur st); try contradiction; [|reflexivity]. destruct A as [A _]. cbn [option_map fst]. rewrite A. reflexivity. Qed.

Lemma who_app : forall ver a b, who ver (a ++ b) = fold_left (who1 ver) b (who ver a).
Proof. intros. unfold who. apply fold_left_app. Qed.
Lemma ticks_app : forall a b, ticks (a ++ b) = ticks a + ticks b.
Proof. induction a as [|[] a IH]; intros b; cbn [ticks app]; try rewrite IH; lia. Qed.
Lemma ticks_nn : forall a, 0 <= ticks a.
Proof. induction a as [|[] a IH]; cbn [ticks]; lia. Qed.
Lemma run_app : forall ver a b st st1 o1, crun ver st a = Ok (st1, o1) -> crun ver st (a ++ b) = (let* (st2, o2) := crun ver st1 b in Ok (st2, o1 ++ o2)).
Proof.
  intros ver. induction a as [|e a IH]; intros b st st1 o1 E; cbn [crun app] in *.
  - injection E as <- <- . destruct (crun ver st b) as [[]|]; reflexivity.
  - destruct (cstep ver st e) as [[sx ox]|]; cbn [bind] in *; [|discriminate]. destruct (crun ver sx a) as [[sy oy]|] eqn:R; cbn [bind] in E; [|discriminate]. injection E as <- <- .
    rewrite (IH b _ _ _ R). destruct (crun ver sy b) as [[sz oz]|]; cbn [bind]; [|reflexivity]. rewrite app_assoc. reflexivity.
Qed.
Lemma reach : forall ver h st o, zlen ver = 8 -> Forall works h -> crun (Some ver) cinit h = Ok (st, o) -> agrees st (who ver h).
Proof. intros ver h st o L W E. destruct (run_agrees ver h cinit None L I W) as (st' & o' & E' & A). rewrite E in E'. injection E' as <- <- . exact A. Qed.

(** * Theorems *)
(** The server never fails, and the user is the one of the specification. *)
Theorem cons_user : forall ver h, zlen ver = 8 -> Forall works h -> exists st o, crun (Some ver) cinit h = Ok (st, o) /\ user st = option_map fst (who ver h).
Proof.
  intros ver h L W. destruct (run_agrees ver h cinit None L I W) as (st & o & E & A). exists st, o. split; [exact E|]. apply agrees_user. exact A.
Qed.
Print Assumptions cons_user.

(** A station has the console exactly when it asked with the right password
    while the console was free, and since then has neither released it nor let
    15 seconds go by without a command. *)
Definition keeps (u : list Z) (b : list cev) : Prop :=
  Forall (fun e => is_rel u e = false) b /\
  forall x y z, b = x ++ y ++ z -> Forall (fun e => is_cmd u e = false) y -> ticks y < 15.
Lemma not_both : forall u e, is_cmd u e = true -> is_rel u e = false.
Proof. intros u [v [|c [|f p]] fk w r|] C; cbn [is_cmd is_rel] in *; try discriminate. rewrite (leqb_no (c :: f :: p) [15]) by congruence. apply andb_false_r. Qed.
Lemma keeps_who : forall ver u b, keeps u b ->
  exists x y, b = x ++ y /\ Forall (fun e => is_cmd u e = false) y /\ fold_left (who1 ver) b (Some (u, 0)) = Some (u, ticks y).
Proof.
  intros ver u. induction b as [|e b IH] using rev_ind; intros [K1 K2]. { exists [], []. auto. }
  apply Forall_app in K1. destruct K1 as [K1 Ke]. apply Forall_inv in Ke.
  destruct IH as (x & y & -> & NC & F).
  { split; [exact K1|]. intros x y z -> . apply (K2 x y (z ++ [e])). rewrite <- !app_assoc. reflexivity. }
  rewrite fold_left_app, F. cbn [fold_left who1]. destruct e as [src bf fork w r|].
  - rewrite Ke. destruct (is_cmd u (CPkt src bf fork w r)) eqn:C.
    + exists ((x ++ y) ++ [CPkt src bf fork w r]), []. rewrite app_nil_r. auto.
    + exists x, (y ++ [CPkt src bf fork w r]). rewrite ticks_app. cbn [ticks]. rewrite Z.add_0_r, app_assoc. repeat split. apply Forall_app. auto.
  - exists x, (y ++ [CTick]). assert (N : Forall (fun e => is_cmd u e = false) (y ++ [CTick])) by (apply Forall_app; auto).
    assert (T : ticks (y ++ [CTick]) < 15). { apply (K2 x _ []); [rewrite app_nil_r, app_assoc; reflexivity|exact N]. }
    rewrite app_assoc. repeat split; [exact N|]. rewrite ticks_app in *. cbn [ticks] in *. replace (ticks y + 1 <? 15) with true by lia. reflexivity.
Qed.
Lemma split_last : forall (b x y z : list cev) e, b ++ [e] = x ++ y ++ z ->
  (exists z', z = z' ++ [e] /\ b = x ++ y ++ z') \/ (z = [] /\ exists y', y = y' ++ [e] /\ b = x ++ y') \/ (z = [] /\ y = []).
Proof.
  intros b x y z e E. destruct z as [|z0 z] using rev_ind.
  - right. destruct y as [|y0 y] using rev_ind; [right; auto|]. left. rewrite app_nil_r, app_assoc in E. apply app_inj_tail in E. destruct E as [-> -> ]. eauto.
  - left. rewrite !app_assoc in E. apply app_inj_tail in E. destruct E as [-> -> ]. exists z. rewrite <- app_assoc. auto.
Qed.
Lemma who_keeps : forall ver h u n, who ver h = Some (u, n) ->
  exists a e b, h = a ++ e :: b /\ is_req ver e = Some u /\ who ver a = None /\ keeps u b /\
    (forall x y, b = x ++ y -> Forall (fun e => is_cmd u e = false) y -> ticks y <= n).
Proof.
  intros ver. induction h as [|e h IH] using rev_ind; intros u n W; [discriminate W|].
  rewrite who_app in W. cbn [fold_left] in W. destruct (who ver h) as [[u' n']|] eqn:Wh.
  2:{ cbn [who1] in W. destruct (is_req ver e) as [v|] eqn:R; [|discriminate W]. injection W as -> <- . exists h, e, []. repeat split; auto.
      - intros x y z Q _. destruct x; [|discriminate Q]. destruct y; [|discriminate Q]. reflexivity.
      - intros x y Q _. destruct x; [|discriminate Q]. cbn [app] in Q. subst y. reflexivity. }
  assert (X : u' = u /\ is_rel u e = false /\ (is_cmd u e = true \/ (is_cmd u e = false /\ n = n' + ticks [e])) /\ n < 15 /\ 0 <= n).
  { assert (0 <= n' < 15) as B by (clear - Wh; revert u' n' Wh; induction h as [|e h IH] using rev_ind; intros u n W; [discriminate W|]; rewrite who_app in W; cbn [fold_left] in W; destruct (who ver h) as [[v m]|]; cbn [who1] in W;
      [specialize (IH _ _ eq_refl); destruct e; [destruct (is_rel _ _); [discriminate W|]; destruct (is_cmd _ _); injection W as <- <- ; lia|destruct (m + 1 <? 15) eqn:Q; [|discriminate W]; injection W as <- <- ; lia]
      |destruct (is_req ver e); [|discriminate W]; injection W as <- <- ; lia]).
    cbn [who1] in W. destruct e as [src bf fork w r|].
    - destruct (is_rel u' _) eqn:R; [discriminate W|]. destruct (is_cmd u' _) eqn:C; injection W as <- <- ; cbn [ticks]; repeat split; auto; try lia; right; split; auto; lia.
    - destruct (n' + 1 <? 15) eqn:Q; [|discriminate W]. injection W as <- <- . cbn [ticks is_rel is_cmd]. repeat split; auto; try lia; right; split; auto; lia. }
  destruct X as (-> & NR & CM & LT & GE).
  destruct (IH u n' eq_refl) as (a & e0 & b & -> & RQ & WA & [K1 K2] & K3). exists a, e0, (b ++ [e]).
  assert (S : forall x y, b ++ [e] = x ++ y -> Forall (fun e => is_cmd u e = false) y -> ticks y <= n).
  { intros x y Q NC. destruct y as [|y0 y] using rev_ind; [cbn [ticks]; lia|]. rewrite app_assoc in Q. apply app_inj_tail in Q. destruct Q as [Q <-]. apply Forall_app in NC. destruct NC as [NC NE]. apply Forall_inv in NE.
    destruct CM as [CM|[CM ->]]; [congruence|]. rewrite ticks_app. specialize (K3 x y Q NC). lia. }
  split; [rewrite <- app_assoc; reflexivity|]. split; [exact RQ|]. split; [exact WA|]. split; [|exact S]. split.
  - apply Forall_app. auto.
  - intros x y z Q NC. destruct (split_last _ _ _ _ _ Q) as [(z' & -> & Q')|[(-> & y' & -> & Q')|(-> & -> )]].
    + apply (K2 x y z' Q' NC).
    + rewrite app_nil_r in Q. specialize (S x _ Q NC). lia.
    + reflexivity.
Qed.
Theorem cons_password : forall ver h st o u, zlen ver = 8 -> Forall works h -> crun (Some ver) cinit h = Ok (st, o) ->
  (user st = Some u <-> exists a e b, h = a ++ e :: b /\ is_req ver e = Some u /\ who ver a = None /\ keeps u b).
Proof.
  intros ver h st o u L W E. rewrite (agrees_user _ _ (reach _ _ _ _ L W E)). split.
  - destruct (who ver h) as [[v n]|] eqn:Q; [|discriminate 1]. cbn [option_map fst]. intros X. injection X as -> . destruct (who_keeps _ _ _ _ Q) as (a & e & b & A1 & A2 & A3 & A4 & _). eauto 8.
  - intros (a & e & b & -> & RQ & WA & K). rewrite who_app. cbn [fold_left]. rewrite WA. cbn [who1]. rewrite RQ. destruct (keeps_who ver u b K) as (x & y & _ & _ & -> ). reflexivity.
Qed.
Print Assumptions cons_password.

(** Everything the session shows or sends is for its user and was asked for by
    them. *)
Definition asked (ver : list Z) (s : option (list Z * Z)) (e : cev) (o : cout) : Prop :=
  match o with
  | COpen u => s = None /\ is_req ver e = Some u
  | CClose u => exists n, s = Some (u, n) /\ (is_rel u e = true \/ (e = CTick /\ n = 14))
  | CTerm _ | CLost _ | CShow _ => exists u n, s = Some (u, n) /\ is_cmd u e = true
  | CResp dst (q, _) => exists n f p fork w r, s = Some (dst, n) /\ e = CPkt dst (17 :: f :: p) fork w r /\ q = f mod 2
  | CSysId dst receipt carrier u => exists x y z fork w r, e = CPkt dst [5; x; y; z] fork w r /\ receipt = y + 256 * z /\ carrier = true /\ u = option_map fst s
  end.
Lemma command_out : forall v m w r v2 fs o u x, s_command v m w r = (v2, fs, o) -> In x (map (lift u) o) -> match x with CTerm _ | CLost _ | CShow _ => True | _ => False end.
Proof.
  intros v m w r v2 fs o u x S IN. unfold s_command in S. destruct (negb (sup v)); [injection S as <- <- <- ; contradiction IN|]. destruct (_ =? _); cbn zeta in S; injection S as <- <- <- ; [contradiction IN|].
  cbn [map In] in IN. destruct IN as [<-|[<-|[]]]; [destruct w|]; exact I.
Qed.
Theorem cons_private : forall ver h st o e st2 oe, zlen ver = 8 -> Forall works (h ++ [e]) -> crun (Some ver) cinit h = Ok (st, o) -> cstep (Some ver) st e = Ok (st2, oe) ->
  Forall (asked ver (who ver h) e) oe.
Proof.
  intros ver h st o e st2 oe L W E S. apply Forall_app in W. destruct W as [W We]. apply Forall_inv in We. pose proof (reach _ _ _ _ L W E) as A. clear E W o.
  generalize dependent (who ver h). intros s A. clear h. apply Forall_forall. intros x IN. destruct st as [now cur]. unfold agrees in A. cbn [c_cur c_now] in A. destruct e as [src b fork w r|].
  2:{ cbn [cstep] in S. injection S as S. unfold ctick in S. cbn [c_now c_cur] in S. destruct s as [[u n]|], cur as [c|]; try contradiction; [|injection S as <- <- ; contradiction IN].
      destruct A as (A1 & A2 & A3 & A4 & A5). rewrite A4 in S. destruct (_ <=? _) eqn:Q; injection S as <- <- ; [|contradiction IN]. unfold crelease in IN. rewrite A2 in IN. destruct IN as [<-|[]]. cbn [asked]. rewrite A1. exists n. split; [reflexivity|]. right. split; [reflexivity|lia]. }
  cbn [works] in We. subst fork. cbn [cstep c_now c_cur] in S. unfold cpkt in S. pose proof (parse_cases b) as P.
  destruct (cons_parse b) as [[v| |q p|rc]|].
  - destruct P as [-> LV]. destruct s as [[u n]|], cur as [c|]; try contradiction; cbn [bind] in S; [injection S as <- <- ; contradiction IN|].
    destruct (leqb ver v) eqn:Q; cbn [copen bind] in S; injection S as <- <- ; [|contradiction IN]. destruct IN as [<-|[]]. cbn [asked is_req]. apply leqb_eq in Q. subst v. rewrite leqb_yes. auto.
  - subst b. destruct s as [[u n]|], cur as [c|]; try contradiction; cbn [bind] in S; [|injection S as <- <- ; contradiction IN].
    destruct A as (A1 & A2 & A3 & A4 & A5). unfold cserve in S. rewrite A1 in S. destruct (leqb src u) eqn:Q; cbn [negb bind] in S; injection S as <- <- ; [|contradiction IN].
    rewrite app_nil_r in IN. unfold crelease in IN. rewrite A2 in IN. destruct IN as [<-|[]]. cbn [asked is_rel]. rewrite A1. exists n. split; [reflexivity|]. left. rewrite Q. reflexivity.
  - destruct P as (f & -> & -> ). destruct s as [[u n]|], cur as [c|]; try contradiction; cbn [bind] in S; [|injection S as <- <- ; contradiction IN].
    destruct A as (A1 & A2 & A3 & A4 & A5). unfold cserve in S. rewrite A1, A2 in S. destruct (leqb src u) eqn:Q; cbn [negb andb bind] in S; [|injection S as <- <- ; contradiction IN].
    destruct (s_command (c_srv c) (f mod 2, p) w r) as [[v fs] o] eqn:SC. cbn [bind] in S. injection S as <- <- . rewrite app_nil_r in IN. apply in_app_iff in IN. destruct IN as [IN|IN].
    + pose proof (command_out _ _ _ _ _ _ _ _ _ SC IN) as X. destruct x; try contradiction; cbn [asked is_cmd]; exists u, n; rewrite Q; auto.
    + destruct (command_up _ _ _ _ _ _ _ _ A3 SC) as (_ & _ & [(-> & _)|(d & -> & _)]); [contradiction IN|]. destruct IN as [<-|[]]. cbn [asked]. apply leqb_eq in Q. subst src. exists n, f, p, true, w, r. auto.
  - destruct P as (x0 & y & z & -> & -> ). destruct s as [[u n]|], cur as [c|]; try contradiction; cbn [bind] in S.
    + destruct A as (A1 & A2 & A3 & A4 & A5). unfold cserve in S. destruct (leqb src (c_user c)) eqn:Q; cbn [negb bind option_map] in S; injection S as <- <- ; destruct IN as [<-|[]]; cbn [asked option_map fst]; rewrite A1; exists x0, y, z, true, w, r; auto.
    + injection S as <- <- . destruct IN as [<-|[]]. cbn [asked option_map]. exists x0, y, z, true, w, r. auto.
  - injection S as <- <- . contradiction IN.
Qed.
Print Assumptions cons_private.

(** A request for the system id is answered, to whoever sent it, with the
    reservation as it is. *)
Theorem cons_sysid : forall ver h st o src x y z fork w r, zlen ver = 8 -> Forall works h -> crun (Some ver) cinit h = Ok (st, o) ->
  cstep (Some ver) st (CPkt src [5; x; y; z] fork w r) = Ok (st, [CSysId src (y + 256 * z) true (option_map fst (who ver h))]).
Proof.
  intros ver h st o src x y z fork w r L W E. pose proof (reach _ _ _ _ L W E) as A. clear E. generalize dependent (who ver h). intros s A. rewrite <- (agrees_user _ _ A). destruct st as [now cur]. unfold user. cbn [cstep c_now c_cur]. unfold cpkt. cbn [cons_parse Z.eqb Pos.eqb].
  destruct cur as [c|]; cbn [bind option_map]; [|reflexivity]. unfold cserve. destruct (leqb src (c_user c)); reflexivity.
Qed.
Print Assumptions cons_sysid.

(** While a station has the console, nothing another station sends changes
    anything, and only a request for the system id is answered. *)
Theorem cons_bystander : forall ver h st o u src b fork w r, zlen ver = 8 -> Forall works h -> crun (Some ver) cinit h = Ok (st, o) -> user st = Some u -> src <> u ->
  cstep (Some ver) st (CPkt src b fork w r) =
  Ok (st, match b with [5; x; y; z] => [CSysId src (y + 256 * z) true (Some u)] | _ => [] end).
Proof.
  intros ver h st o u src b fork w r L W E U N. destruct st as [now cur]. unfold user in U. cbn [c_cur] in U. destruct cur as [c|]; [|discriminate U]. injection U as U.
  cbn [cstep c_now c_cur]. unfold cpkt. pose proof (parse_cases b) as P. assert (Q : leqb src (c_user c) = false) by (apply leqb_no; congruence). unfold cserve. rewrite Q. cbn [negb bind option_map]. rewrite U.
  destruct (cons_parse b) as [[v| |q p|rc]|] eqn:PB; cbn [bind app].
  - destruct P as [-> _]. reflexivity.
  - subst b. reflexivity.
  - destruct P as (f & -> & -> ). reflexivity.
  - destruct P as (x & y & z & -> & -> ). reflexivity.
  - destruct b as [|[|[[p|[p|p|]|]|p|]|p] t]; try reflexivity. destruct t as [|x [|y [|z [|? ?]]]]; try reflexivity. discriminate PB.
Qed.
Print Assumptions cons_bystander.

(** Nothing is left of an earlier session: whenever the console is free, what
    follows goes as it would go after a restart. *)
Definition later (d : Z) (st : cons) : cons :=
  {| c_now := c_now st + d; c_cur := option_map (fun c => {| c_user := c_user c; c_srv := c_srv c; c_pty := c_pty c; c_due := option_map (fun t => t + d) (c_due c) |}) (c_cur st) |}.
Lemma step_later : forall ver d st e, cstep ver (later d st) e = (let* (st2, o) := cstep ver st e in Ok (later d st2, o)).
Proof.
  intros ver d [now cur] e. unfold later at 1. cbn [c_now c_cur]. destruct e as [src b fork w r|]; cbn [cstep c_now c_cur].
  - unfold cpkt. destruct (cons_parse b) as [[v| |q p|rc]|]; cbn [bind]; try reflexivity.
    + destruct ver as [pw|], cur as [c|]; cbn [option_map bind]; try reflexivity. destruct (leqb pw v); [|reflexivity]. unfold copen. destruct fork; cbn [bind]; unfold later; cbn [c_now c_cur option_map c_user c_srv c_pty c_due]; try reflexivity.
      replace (now + d + reservation_timer) with (now + reservation_timer + d) by lia. reflexivity.
    + destruct cur as [c|]; cbn [option_map bind]; [|reflexivity]. unfold cserve. cbn [c_user c_srv c_pty c_due]. destruct (leqb src (c_user c)); reflexivity.
    + destruct cur as [c|]; cbn [option_map bind]; [|reflexivity]. unfold cserve. cbn [c_user c_srv c_pty c_due]. destruct (leqb src (c_user c)); cbn [negb bind]; [|reflexivity].
      destruct (_ && _); [reflexivity|]. destruct (s_command _ _ _ _) as [[v fs] o]. cbn [bind]. unfold later. cbn [c_now c_cur option_map c_user c_srv c_pty c_due].
      replace (now + d + reservation_timer) with (now + reservation_timer + d) by lia. reflexivity.
    + destruct cur as [c|]; cbn [option_map bind]; [|reflexivity]. unfold cserve. cbn [c_user c_srv c_pty c_due]. destruct (leqb src (c_user c)); cbn [negb bind option_map c_user]; reflexivity.
  - unfold ctick. cbn [c_now c_cur bind]. destruct cur as [c|]; cbn [option_map c_due].
    + destruct (c_due c) as [t|] eqn:D; cbn [option_map].
      * replace (t + d <=? now + d + 1) with (t <=? now + 1) by lia. destruct (t <=? now + 1); cbn [bind]; unfold later; cbn [c_now c_cur option_map]; rewrite ?D; cbn [option_map]; replace (now + d + 1) with (now + 1 + d) by lia; reflexivity.
      * cbn [bind]. unfold later. cbn [c_now c_cur option_map]. rewrite D. cbn [option_map]. replace (now + d + 1) with (now + 1 + d) by lia. reflexivity.
    + cbn [bind]. unfold later. cbn [c_now c_cur option_map]. replace (now + d + 1) with (now + 1 + d) by lia. reflexivity.
Qed.
Lemma run_later : forall ver d h st, crun ver (later d st) h = (let* (st2, o) := crun ver st h in Ok (later d st2, o)).
Proof.
  intros ver d. induction h as [|e h IH]; intros st; cbn [crun]; [reflexivity|]. rewrite step_later. destruct (cstep ver st e) as [[st1 o1]|]; cbn [bind]; [|reflexivity]. rewrite IH. destruct (crun ver st1 h) as [[st2 o2]|]; reflexivity.
Qed.
Theorem cons_fresh : forall ver a b st o, zlen ver = 8 -> Forall works (a ++ b) -> who ver a = None -> crun (Some ver) cinit (a ++ b) = Ok (st, o) ->
  exists oa st2 ob, o = oa ++ ob /\ (exists st1, crun (Some ver) cinit a = Ok (st1, oa)) /\ crun (Some ver) cinit b = Ok (st2, ob) /\ user st = user st2.
Proof.
  intros ver a b st o L W N E. apply Forall_app in W. destruct W as [Wa Wb].
  destruct (run_agrees ver a cinit None L I Wa) as (st1 & oa & Ea & A). change (fold_left (who1 ver) a None) with (who ver a) in A. rewrite N in A.
  rewrite (run_app _ _ _ _ _ _ Ea) in E. assert (X : st1 = later (c_now st1) cinit). { unfold agrees in A. destruct st1 as [now [c|]]; cbn [c_cur] in A; [contradiction|]. reflexivity. }
  rewrite X, run_later in E. destruct (run_agrees ver b cinit None L I Wb) as (st2 & ob & Eb & B). rewrite Eb in E. cbn [bind] in E. injection E as <- <- .
  exists oa, st2, ob. repeat split; eauto. unfold user, later. cbn [c_cur]. destruct (c_cur st2); reflexivity.
Qed.
Print Assumptions cons_fresh.

(** What the terminal is given is the payloads of the user's commands, in order
    and each once, however often a command is repeated; input the terminal did
    not take yet is kept for the next command. *)
Definition typed (e : cev) : Prop := match e with CPkt _ b _ w _ => match w with Some n => zlen b <= n | None => False end | CTick => True end.
Definition pending (st : cons) : list Z := match c_cur st with Some c => spend (c_srv c) | None => [] end.
Lemma entered_app : forall a b, entered (a ++ b) = entered a ++ entered b.
Proof. induction a as [|[] a IH]; intros b; cbn [entered app]; try rewrite IH; try rewrite app_assoc; reflexivity. Qed.
Lemma entered_resp : forall u fs, entered (map (CResp u) fs) = [].
Proof. induction fs as [|f fs IH]; cbn [map entered]; [reflexivity|exact IH]. Qed.
Lemma upto_from : forall n (l : list Z), upto n l ++ from n l = l.
Proof. intros. unfold upto, from. apply firstn_skipn. Qed.
Lemma command_in : forall v q p w r v2 fs o u, sup v = true -> s_command v (q, p) w r = (v2, fs, o) ->
  entered (map (lift u) o) ++ spend v2 = spend v ++ (if q =? sseq v then [] else p) /\
  (match w with Some n => zlen (spend v ++ p) <= n | None => False end -> spend v = [] -> spend v2 = [] /\ forall d, ~ In (OLost d) o).
Proof.
  intros v q p w r v2 fs o u U S. unfold s_command in S. rewrite U in S. cbn [negb fst snd] in S. cbn zeta in S.
  destruct (q =? sseq v). { injection S as <- <- <- . cbn [map entered app]. rewrite app_nil_r. auto. }
  injection S as <- <- <- . cbn [spend]. split.
  - destruct w as [n|]; cbn [map lift entered]; rewrite app_nil_r; [apply upto_from|]. unfold from, zlen. rewrite Nat2Z.id, skipn_all, app_nil_r. reflexivity.
  - intros T _. destruct w as [n|]; [|contradiction]. split.
    + unfold from. apply skipn_all2. unfold zlen in T. lia.
    + intros d [X|[X|[]]]; discriminate X.
Qed.
Lemma input_run : forall ver u h st st2 o n, zlen ver = 8 -> agrees st (Some (u, n)) -> Forall works h ->
  (forall x y, h = x ++ y -> exists m, fold_left (who1 ver) x (Some (u, n)) = Some (u, m)) -> crun (Some ver) st h = Ok (st2, o) ->
  entered o ++ pending st2 = pending st ++ concat (fresh u (match c_cur st with Some c => sseq (c_srv c) | None => 0 end) h) /\
  (Forall typed h -> pending st = [] -> pending st2 = [] /\ forall d, ~ In (CLost d) o).
Proof.
  intros ver u. induction h as [|e h IH]; intros st st2 o n L A W K E; cbn [crun] in E.
  { injection E as <- <- . cbn [entered fresh concat app]. rewrite app_nil_r. auto. }
  destruct (step_agrees ver st (Some (u, n)) e L A (Forall_inv W)) as (st1 & o1 & E1 & A1). rewrite E1 in E. cbn [bind] in E. destruct (crun (Some ver) st1 h) as [[st3 o2]|] eqn:E2; cbn [bind] in E; [|discriminate E]. injection E as -> <- .
  assert (Q : exists m, who1 ver (Some (u, n)) e = Some (u, m)) by (destruct (K [e] h eq_refl) as [m M]; exists m; exact M). destruct Q as [m Q]. rewrite Q in A1.
  assert (K1 : forall x y, h = x ++ y -> exists m0, fold_left (who1 ver) x (Some (u, m)) = Some (u, m0)). { intros x y -> . destruct (K (e :: x) y eq_refl) as [m0 M]. exists m0. cbn [fold_left] in M. rewrite Q in M. exact M. }
  destruct (IH st1 st2 o2 m L A1 (Forall_inv_tail W) K1 E2) as [I1 I2]. clear IH E2 K K1.
  (* one step *)
  assert (X : entered o1 ++ pending st1 = pending st ++ concat (fresh u (match c_cur st with Some c => sseq (c_srv c) | None => 0 end) [e]) /\
              fresh u (match c_cur st with Some c => sseq (c_srv c) | None => 0 end) (e :: h) =
              fresh u (match c_cur st with Some c => sseq (c_srv c) | None => 0 end) [e] ++ fresh u (match c_cur st1 with Some c => sseq (c_srv c) | None => 0 end) h /\
              (typed e -> pending st = [] -> pending st1 = [] /\ forall d, ~ In (CLost d) o1)).
  { clear I1 I2 W. destruct st as [now [c|]]; unfold agrees in A; cbn [c_cur c_now] in A; [|contradiction]. destruct A as (A1' & A2 & A3 & A4 & A5). unfold pending at 2 4. cbn [c_cur].
    destruct e as [src b fork w r|].
    2:{ cbn [cstep] in E1. injection E1 as E1. unfold ctick in E1. cbn [c_cur c_now] in E1. rewrite A4 in E1. cbn [who1] in Q. destruct (n + 1 <? 15) eqn:T; [|discriminate Q]. replace (now - n + 15 <=? now + 1) with false in E1 by lia. injection E1 as <- <- .
        unfold pending. cbn [entered c_cur fresh concat app]. rewrite app_nil_r. auto. }
    cbn [cstep c_cur c_now] in E1. unfold cpkt in E1. pose proof (parse_cases b) as P. destruct (cons_parse b) as [[v| |q p|rc]|].
    - destruct P as [-> _]. cbn [bind] in E1. injection E1 as <- <- . unfold pending. cbn [entered c_cur fresh concat app]. rewrite app_nil_r. auto.
    - subst b. cbn [who1 is_rel] in Q. replace (leqb [15] [15]) with true in Q by reflexivity. rewrite andb_true_r in Q. destruct (leqb src u) eqn:S; [discriminate Q|].
      unfold cserve in E1. rewrite A1', S in E1. cbn [negb bind] in E1. injection E1 as <- <- . unfold pending. cbn [entered c_cur fresh concat app]. rewrite app_nil_r. auto.
    - destruct P as (f & -> & -> ). unfold cserve in E1. rewrite A1', A2 in E1. cbn [fresh]. destruct (leqb src u) eqn:S; cbn [negb andb bind] in E1 |- *.
      + destruct (s_command (c_srv c) (f mod 2, p) w r) as [[v fs] oo] eqn:SC. cbn [bind] in E1. injection E1 as <- <- . destruct A3 as [U3 A3]. unfold pending. cbn [c_cur c_srv]. rewrite app_nil_r, entered_app, entered_resp, app_nil_r.
        destruct (command_in _ _ _ _ _ _ _ _ u U3 SC) as [C1 C2]. destruct (command_up _ _ _ _ _ _ _ _ (conj U3 A3) SC) as (_ & C3 & _).
        split; [|split].
        * rewrite C1. destruct (f mod 2 =? sseq (c_srv c)); cbn [negb concat app]; rewrite ?app_nil_r; reflexivity.
        * destruct (Z.eqb_spec (f mod 2) (sseq (c_srv c))) as [F|F]; cbn [negb app]; rewrite C3; [rewrite F|]; reflexivity.
        * intros T PE. cbn [typed] in T. destruct C2 as [C4 C5]; [destruct w as [k|]; [|contradiction]; rewrite PE; cbn [app]; unfold zlen in *; cbn [length] in T; lia|exact PE|]. split; [exact C4|]. intros d IN. apply in_app_iff in IN. destruct IN as [IN|IN].
          { apply in_map_iff in IN. destruct IN as (k & K1 & K2). unfold s_command in SC. destruct k; cbn [lift] in K1; try discriminate K1. eapply C5. exact K2. }
          { apply in_map_iff in IN. destruct IN as (k & K1 & K2). discriminate K1. }
      + injection E1 as <- <- . unfold pending. cbn [entered c_cur fresh concat app]. rewrite app_nil_r. auto.
    - destruct P as (x & y & z & -> & -> ). unfold cserve in E1. destruct (leqb src (c_user c)); cbn [negb bind] in E1; injection E1 as <- <- ; unfold pending; cbn [entered c_cur fresh concat app]; rewrite app_nil_r; (split; [reflexivity|split; [reflexivity|]]); intros _ X; (split; [exact X|]); intros d [Y|[]]; discriminate Y.
    - destruct P as (P1 & P2 & P3). injection E1 as <- <- . unfold pending. cbn [entered c_cur app]. assert (F : forall bit t, fresh u bit (CPkt src b fork w r :: t) = fresh u bit t).
      { intros bit t. destruct b as [|c0 [|f p]]; try reflexivity; [destruct c0 as [|q|q]; try reflexivity; repeat (destruct q as [q|q|]; try reflexivity)|].
        destruct (Z.eqb_spec c0 17) as [-> |N17]; [exfalso; apply (P3 f p); reflexivity|]. destruct c0 as [|[[q|[q|[q|[q|q|]|]|]|]|q|]|q]; try reflexivity. contradiction N17. reflexivity. }
      rewrite !F. cbn [fresh concat app]. rewrite app_nil_r. auto. }
  destruct X as (X1 & X2 & X3). split.
  - rewrite entered_app, <- app_assoc, I1, X2, concat_app, !app_assoc. f_equal. exact X1.
  - intros T PE. destruct (X3 (Forall_inv T) PE) as [P1 P2]. destruct (I2 (Forall_inv_tail T) P1) as [P3 P4]. split; [exact P3|]. intros d IN. apply in_app_iff in IN. destruct IN as [IN|IN]; [apply (P2 d IN)|apply (P4 d IN)].
Qed.
Theorem cons_input : forall ver a e b u st o, zlen ver = 8 -> Forall works (a ++ e :: b) -> who ver a = None -> is_req ver e = Some u -> keeps u b -> crun (Some ver) cinit (a ++ e :: b) = Ok (st, o) ->
  exists oa ob rest, o = oa ++ COpen u :: ob /\ (exists st1, crun (Some ver) cinit a = Ok (st1, oa)) /\
    entered ob ++ rest = concat (fresh u 0 b) /\ (Forall typed b -> rest = [] /\ forall d, ~ In (CLost d) ob).
Proof.
  intros ver a e b u st o L W N R K E. destruct (cons_fresh ver a (e :: b) st o L W N E) as (oa & st2 & ob & -> & EA & EB & _). apply Forall_app in W. destruct W as [_ W].
  assert (X : exists fork w r, e = CPkt u (13 :: ver) fork w r /\ fork = true). { destruct e as [src bf fork w r|]; cbn [is_req] in R; [|discriminate R]. destruct (leqb bf (13 :: ver)) eqn:Q; [|discriminate R]. injection R as -> . apply leqb_eq in Q. subst bf. exists fork, w, r. split; [reflexivity|]. exact (Forall_inv W). }
  destruct X as (fork & w & r & -> & -> ). cbn [crun] in EB.
  assert (S : cstep (Some ver) cinit (CPkt u (13 :: ver) true w r) = Ok ({| c_now := 0; c_cur := Some {| c_user := u; c_srv := server0; c_pty := true; c_due := Some 15 |} |}, [COpen u])).
  { cbn [cstep c_now c_cur cinit]. unfold cpkt. cbn [cons_parse Z.eqb Pos.eqb]. rewrite L. cbn [Z.eqb Pos.eqb]. rewrite leqb_yes. reflexivity. }
  rewrite S in EB. cbn [bind] in EB. destruct (crun (Some ver) _ b) as [[st3 oo]|] eqn:EC in EB; cbn [bind] in EB; [|discriminate EB]. injection EB as -> <- .
  assert (A : agrees {| c_now := 0; c_cur := Some {| c_user := u; c_srv := server0; c_pty := true; c_due := Some 15 |} |} (Some (u, 0))).
  { unfold agrees, up. cbn [c_cur c_now c_user c_pty c_srv c_due server0 sup sseq sresp]. repeat split; auto; lia. }
  assert (P : forall x y, b = x ++ y -> exists m, fold_left (who1 ver) x (Some (u, 0)) = Some (u, m)).
  { intros x y -> . destruct K as [K1 K2]. apply Forall_app in K1. destruct (keeps_who ver u x) as (x1 & y1 & _ & _ & F); [|eauto]. split; [exact (proj1 K1)|]. intros x2 y2 z2 -> . apply (K2 x2 y2 (z2 ++ y)). rewrite <- !app_assoc. reflexivity. }
  destruct (input_run ver u b _ _ _ 0 L A (Forall_inv_tail W) P EC) as [I1 I2].
  exists oa, oo, (pending st2). repeat split; auto.
  - intros. apply I2; auto.
  - intros. apply I2; auto.
Qed.
Print Assumptions cons_input.

(** Without a configured password nobody ever gets the console. *)
Theorem cons_off : forall h, exists st o, crun None cinit h = Ok (st, o) /\ user st = None /\
  Forall (fun x => match x with CSysId _ _ carrier u => carrier = false /\ u = None | _ => False end) o.
Proof.
  intros h. assert (X : forall h now, exists st o, crun None {| c_now := now; c_cur := None |} h = Ok (st, o) /\ user st = None /\ Forall (fun x => match x with CSysId _ _ carrier u => carrier = false /\ u = None | _ => False end) o); [|apply X].
  clear h. induction h as [|e h IH]; intros now; cbn [crun]; [eexists _, _; split; [reflexivity|]; split; [reflexivity|constructor]|].
  destruct e as [src b fork w r|]; cbn [cstep].
  - unfold cpkt. cbn [c_now c_cur]. destruct (IH now) as (st & o & E & U & F). destruct (cons_parse b) as [[v| |q p|rc]|]; cbn [bind]; rewrite E; cbn [bind]; eexists _, _; (split; [reflexivity|]); (split; [exact U|]); try exact F. constructor; auto.
  - unfold ctick. cbn [c_now c_cur bind]. destruct (IH (now + 1)) as (st & o & E & U & F). rewrite E. cbn [bind]. eexists _, _. split; [reflexivity|]. split; [exact U|exact F].
Qed.
Print Assumptions cons_off.

(** [works] is needed.  When the login process cannot be started the console
    stays reserved, however long the station stays silent and whoever asks for
    it, and a first command from that station stops the node. *)
Theorem cons_fork_refuted : forall ver u w r h, zlen ver = 8 ->
  Forall (fun e => match e with CPkt v _ _ _ _ => v <> u | CTick => True end) h ->
  exists st o, crun (Some ver) cinit (CPkt u (13 :: ver) false w r :: h) = Ok (st, o) /\ user st = Some u /\
    forall p fork w2 r2, cstep (Some ver) st (CPkt u (17 :: 1 :: p) fork w2 r2) = Err EType.
Proof.
  intros ver u w r h L W. cbn [crun cstep c_now c_cur cinit]. unfold cpkt at 1. cbn [cons_parse Z.eqb Pos.eqb]. rewrite L. cbn [Z.eqb Pos.eqb]. rewrite leqb_yes. cbn [copen bind app].
  assert (X : forall h now, Forall (fun e => match e with CPkt v _ _ _ _ => v <> u | CTick => True end) h -> exists now2 o, crun (Some ver) {| c_now := now; c_cur := Some {| c_user := u; c_srv := server0; c_pty := false; c_due := None |} |} h = Ok ({| c_now := now2; c_cur := Some {| c_user := u; c_srv := server0; c_pty := false; c_due := None |} |}, o)).
  { clear h W. induction h as [|e h IH]; intros now W; cbn [crun]; [eauto|]. destruct e as [src b fork w2 r2|]; cbn [cstep c_now c_cur].
    - pose proof (Forall_inv W) as N. cbn beta iota in N. destruct (IH now (Forall_inv_tail W)) as (n2 & o & E). unfold cpkt. assert (Q : leqb src u = false) by (apply leqb_no; exact N).
      destruct (cons_parse b) as [[v| |q p|rc]|]; cbn [bind]; unfold cserve; cbn [c_user]; try rewrite Q; cbn [negb bind]; rewrite E; cbn [bind]; eauto.
    - unfold ctick. cbn [c_now c_cur c_due bind]. destruct (IH (now + 1) (Forall_inv_tail W)) as (n2 & o & E). rewrite E. cbn [bind]. eauto. }
  destruct (X h 0 W) as (n2 & o & E). rewrite E. cbn [bind]. eexists _, _. split; [reflexivity|]. split; [reflexivity|]. intros p fork w2 r2. cbn [cstep c_now c_cur]. unfold cpkt. cbn [cons_parse Z.eqb Pos.eqb bind]. unfold cserve. cbn [c_user c_pty c_srv]. rewrite leqb_yes. reflexivity.
Qed.
Print Assumptions cons_fork_refuted.

(** Station 1 opens the console, station 2 is turned away, station 1 types, is
    silent for 15 seconds, and then station 2 gets it. *)
Definition pw8 : list Z := [1; 2; 3; 4; 5; 6; 7; 8].
Definition req (u : Z) : cev := CPkt [u] (13 :: pw8) true (Some 100) None.
Definition cmd (u f : Z) (p : list Z) (out : list Z) : cev := CPkt [u] (17 :: f :: p) true (Some 100) (Some out).
Example cons_demo : option_map (fun '(st, o) => (user st, o)) (match crun (Some pw8) cinit
    ([CPkt [2] (13 :: 0 :: skipn 1 pw8) true None None; req 1; req 2; cmd 1 1 [65; 66] [36]; cmd 2 1 [9] []; cmd 1 1 [65; 66] []; cmd 1 0 [67] []; CPkt [2] [5; 0; 7; 1] true None None]
     ++ repeat CTick 15 ++ [req 2; CPkt [3] [15] true None None]) with Ok x => Some x | Err _ => None end)
  = Some (Some [2], [COpen [1]; CTerm [65; 66]; CShow [36]; CResp [1] (1, [36]); CResp [1] (1, [36]); CTerm [67]; CShow []; CResp [1] (0, []); CSysId [2] 263 true (Some [1]); CClose [1]; COpen [2]]).
Proof. vm_compute. reflexivity. Qed.
(** The hypotheses of [cons_password] and [cons_input] are met there. *)
Example cons_keeps : who pw8 [req 1; cmd 1 1 [65; 66] [36]; CTick; cmd 1 1 [65; 66] []; cmd 1 0 [67] []] = Some ([1], 0) /\
  Forall works [req 1; cmd 1 1 [65; 66] [36]; CTick; cmd 1 1 [65; 66] []; cmd 1 0 [67] []] /\
  Forall typed [cmd 1 1 [65; 66] [36]; CTick; cmd 1 1 [65; 66] []; cmd 1 0 [67] []] /\
  concat (fresh [1] 0 [cmd 1 1 [65; 66] [36]; CTick; cmd 1 1 [65; 66] []; cmd 1 0 [67] []]) = [65; 66; 67].
Proof. repeat split; repeat constructor; vm_compute; congruence. Qed.
