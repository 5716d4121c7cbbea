(** C40: access control for incoming connections. *)
From Verif Require Import Base Dict PacketModel SessPktModel SessPktProps SessModel.

(** * C40: access control *)
(** ** Specification *)
(** The object an end user descriptor stands for: by number, or by name in
    upper case. *)
Definition stands_for (s : sess) (d : enduser) (o : obj) : Prop :=
  match d with
  | EU0 n => dget Z.eqb (s_num s) n = Some o
  | EU1 nm => dget leqb (s_name s) (upper nm) = Some o
  | EU2 _ _ nm => dget leqb (s_name s) (upper nm) = Some o
  end.
Definition off (o : obj) : Prop := o_auth o = [111; 102; 102].
Definition login (o : obj) : Prop := o_auth o = [108; 111; 103; 105; 110].
(** The supplied user name and password were accepted by PAM, and with login
    authentication the user exists on this system. *)
Definition creds_accepted (e : env) (o : obj) (m : sci) : Prop :=
  sc_user m <> [] /\ sc_pass m <> [] /\ pam e (lower (sc_user m)) (sc_pass m) = true /\
  (login o -> getpw e (lower (sc_user m)) <> None).
(** None were supplied, but the object names a user to run as in that case. *)
Definition default_user (o : obj) (m : sci) : Prop :=
  login o /\ (exists u, o_uid o = Some u /\ u <> 0) /\ (sc_user m = [] \/ sc_pass m = []).
Definition may_start (e : env) (o : obj) (m : sci) : Prop := off o \/ creds_accepted e o m \/ default_user o m.
(** An application is started or told about the connection. *)
Definition started (out : list sout) : Prop :=
  exists x, In x out /\ match x with OStart _ _ _ _ | OItem _ _ _ => True | _ => False end.

(** ** Lemmas *)
Lemma lookup_spec : forall s d o, lookup s d = Some o <-> stands_for s d o.
Proof. intros s [n|nm|g u nm] o; cbn [lookup stands_for]; unfold numget, nameget; tauto. Qed.
Lemma off_b : forall o, leqb (o_auth o) s_off = true <-> off o.
Proof. intros o. unfold off. change [111; 102; 102] with s_off. apply leqb_eq. Qed.
Lemma login_b : forall o, leqb (o_auth o) s_login = true <-> login o.
Proof. intros o. unfold login. change [108; 111; 103; 105; 110] with s_login. apply leqb_eq. Qed.
Lemma nonempty_b : forall l, nonempty l = true <-> l <> [].
Proof. intros [|x l]; cbn [nonempty]; split; congruence. Qed.
Lemma off_login : forall o, off o -> login o -> False.
Proof. unfold off, login. intros o A B. rewrite A in B. discriminate. Qed.
Lemma authorize_spec : forall e o m, fst (fst (authorize e o m)) = true <-> may_start e o m.
Proof.
  intros e o m. unfold authorize, may_start, creds_accepted, default_user.
  destruct (leqb (o_auth o) s_off) eqn:OF.
  { cbn [fst]. apply off_b in OF. tauto. }
  assert (NO : ~ off o) by (intros X; apply off_b in X; congruence).
  destruct (nonempty (sc_user m)) eqn:U, (nonempty (sc_pass m)) eqn:P; cbn [negb orb].
  2,3,4: cbn [fst]; rewrite andb_true_iff, login_b; unfold truthy;
    assert (EM : sc_user m = [] \/ sc_pass m = []) by (destruct (sc_user m), (sc_pass m); cbn [nonempty] in *; auto; discriminate);
    (split; [intros [L T]; right; right; split; [exact L|]; split; [|exact EM]; destruct (o_uid o) as [u|]; [|discriminate]; exists u; split; [reflexivity|]; intros ->; discriminate
            |intros [X|[(X & Y & _)|(L & (u & E1 & E2) & _)]]; [tauto|destruct EM; congruence|]; split; [exact L|]; rewrite E1; destruct (u =? 0) eqn:Z0; [lia|reflexivity]]).
  apply nonempty_b in U, P. destruct (leqb (o_auth o) s_login) eqn:LG.
  - apply login_b in LG. destruct (getpw e (lower (sc_user m))) as [[u g]|] eqn:G; cbn [fst].
    + split; [intros H; right; left; repeat split; auto; congruence|]. intros [X|[(_ & _ & X & _)|(_ & _ & [X|X])]]; tauto.
    + split; [discriminate|]. intros [X|[(_ & _ & _ & X)|(_ & _ & [X|X])]]; try tauto.
  - assert (NL : ~ login o) by (intros X; apply login_b in X; congruence). cbn [fst].
    split; [intros H; right; left; repeat split; auto; tauto|]. intros [X|[(_ & _ & X & _)|(X & _)]]; tauto.
Qed.
Lemma cleanup_loop_quiet : forall l s s' o x, cleanup_loop s l = (s', o, x) -> Forall (fun y => exists n, y = OAbort n) o.
Proof.
  induction l as [|[n|ob] l IH]; intros s s' o x H; cbn [cleanup_loop] in H.
  - injection H as <- <- <-. constructor.
  - destruct (del Z.eqb (s_conns s) n) as [d|e].
    + destruct (cleanup_loop (with_conns s d) l) as [[s1 o1] x1] eqn:C. injection H as <- <- <-. constructor; [eauto|]. eapply IH; eauto.
    + injection H as <- <- <-. constructor; [eauto|constructor].
  - destruct (unregister s ob) as [s1 [e|]]; [injection H as <- <- <-; constructor|]. eapply IH; eauto.
Qed.

(** ** C40: whatever connect message arrives and whatever the objects are, an
    application is started, or told about the connection, only if the
    destination object's access control is satisfied. *)
Theorem sess_access_control : forall e s nsp payload st sent s' out,
  dget Z.eqb (s_conns s) nsp = None -> sess_in e s nsp payload st sent = Ok (s', out) -> started out ->
  exists m o, sci_dec payload = Ok m /\ stands_for s (sc_dst m) o /\ may_start e o m.
Proof.
  intros e s nsp payload st sent s' out NC H (x & IX & KX). unfold sess_in in H. rewrite NC in H.
  destruct (sci_dec payload) as [m|er] eqn:D.
  2:{ destruct er; try discriminate. injection H as <- <-. destruct IX as [<- | []]; contradiction. }
  destruct (lookup s (sc_dst m)) as [o|] eqn:L.
  2:{ injection H as <- <-. destruct IX as [<- | []]; contradiction. }
  exists m, o. split; [reflexivity|]. split; [apply lookup_spec; exact L|]. apply authorize_spec.
  destruct (authorize e o m) as [[ok uid] gid]. cbn [fst]. destruct ok; [reflexivity|]. cbn [negb] in H.
  injection H as <- <-. destruct IX as [<- | [<- | []]]; contradiction.
Qed.
Print Assumptions sess_access_control.

(** The refusals and their reasons: 5 for a malformed message, 4 for an
    unknown object, 34 and an event for missing or wrong credentials; nothing
    else happens.  Every other connection is passed on. *)
Theorem sess_refusals : forall e s nsp payload st sent, dget Z.eqb (s_conns s) nsp = None ->
  (sci_dec payload = Err EDecode -> sess_in e s nsp payload st sent = Ok (s, [OReject nsp 5])) /\
  forall m, sci_dec payload = Ok m ->
    ((forall o, ~ stands_for s (sc_dst m) o) -> sess_in e s nsp payload st sent = Ok (s, [OReject nsp 4])) /\
    (forall o, stands_for s (sc_dst m) o ->
       (~ may_start e o m -> sess_in e s nsp payload st sent = Ok (s, [OAuthEvent nsp; OReject nsp 34]))).
Proof.
  intros e s nsp payload st sent NC. unfold sess_in. rewrite NC. split; [intros -> ; reflexivity|]. intros m -> . split.
  - intros N. destruct (lookup s (sc_dst m)) as [o|] eqn:L; [|reflexivity]. exfalso. apply lookup_spec in L. exact (N o L).
  - intros o S0 N. apply lookup_spec in S0. rewrite S0. pose proof (authorize_spec e o m) as A. destruct (authorize e o m) as [[ok uid] gid]. cbn [fst] in A.
    destruct ok; [tauto|]. reflexivity.
Qed.
Print Assumptions sess_refusals.

(** What runs: a process or module is started as the authenticated user if
    the object has login authentication, otherwise as the object says. *)
Theorem sess_runs_as : forall e s nsp payload st sent s' out ap o uid gid,
  dget Z.eqb (s_conns s) nsp = None -> sess_in e s nsp payload st sent = Ok (s', out) -> In (OStart ap o uid gid) out ->
  exists m, sci_dec payload = Ok m /\ stands_for s (sc_dst m) o /\
    ((login o /\ sc_user m <> [] /\ sc_pass m <> [] /\ exists u g, getpw e (lower (sc_user m)) = Some (u, g) /\ uid = Some u /\ gid = g)
     \/ ((~ login o \/ sc_user m = [] \/ sc_pass m = []) /\ uid = o_uid o /\ gid = o_gid o)).
Proof.
  intros e s nsp payload st sent s' out ap o uid gid NC H IX. unfold sess_in in H. rewrite NC in H.
  destruct (sci_dec payload) as [m|er] eqn:D.
  2:{ destruct er; try discriminate. injection H as <- <-. destruct IX as [X|[]]; discriminate. }
  destruct (lookup s (sc_dst m)) as [o1|] eqn:L.
  2:{ injection H as <- <-. destruct IX as [X|[]]; discriminate. }
  destruct (authorize e o1 m) as [[ok u1] g1] eqn:A. destruct ok; cbn [negb] in H.
  2:{ injection H as <- <-. destruct IX as [X|[X|[]]]; discriminate. }
  assert (E : o1 = o /\ u1 = uid /\ g1 = gid).
  { assert (CL : forall l s0 s2 o2 x, cleanup_loop s0 l = (s2, o2, x) -> ~ In (OStart ap o uid gid) o2).
    { intros l s0 s2 o2 x C I0. apply cleanup_loop_quiet in C. rewrite Forall_forall in C. destruct (C _ I0) as [n Z0]. discriminate. }
    assert (AD : forall s0 a h n c i b s2 o2 x, app_dispatch s0 a h n c i b = (s2, o2, x) -> ~ In (OStart ap o uid gid) o2).
    { intros s0 a h n c i b s2 o2 x C I0. unfold app_dispatch in C. destruct (if c then _ else _) as [s3|].
      - destruct b; [injection C as <- <- <-; destruct I0 as [X|[]]; discriminate|]. unfold cleanup in C. destruct (cleanup_loop s3 (map snd (appget s3 a))) as [[s4 o4] x4] eqn:C4.
        injection C as <- <- <-. destruct I0 as [X|X]; [discriminate|]. eapply CL; eauto.
      - injection C as <- <- <-. destruct I0. }
    destruct (o_kind o1) as [a| |] eqn:K.
    - destruct (app_dispatch _ _ _ _ _ _ _) as [[s2 o2] x] eqn:C. apply AD in C. destruct x; injection H as <- <-; cbn [app] in IX.
      + apply in_app_or in IX. destruct IX as [X|[X|[]]]; [tauto|discriminate].
      + tauto.
    - destruct st.
      + destruct (app_dispatch _ _ _ _ _ _ _) as [[s2 o2] x] eqn:C. apply AD in C. destruct x; injection H as <- <-; cbn [app] in IX; destruct IX as [X|X]; try (injection X; intros; subst; auto; fail).
        * apply in_app_or in X. destruct X as [X|[X|[]]]; [tauto|discriminate].
        * tauto.
      + injection H as <- <-. destruct IX as [X|[]]; discriminate.
      + injection H as <- <-. destruct IX as [X|[]]; discriminate.
    - destruct st.
      + destruct (app_dispatch _ _ _ _ _ _ _) as [[s2 o2] x] eqn:C. apply AD in C. destruct x; injection H as <- <-; cbn [app] in IX; destruct IX as [X|X]; try (injection X; intros; subst; auto; fail).
        * apply in_app_or in X. destruct X as [X|[X|[]]]; [tauto|discriminate].
        * tauto.
      + injection H as <- <-. destruct IX as [X|[]]; discriminate.
      + injection H as <- <-. destruct IX as [X|[]]; discriminate. }
  destruct E as (-> & -> & ->). exists m. split; [reflexivity|]. split; [apply lookup_spec; exact L|].
  unfold authorize in A. destruct (leqb (o_auth o) s_off) eqn:OF.
  { right. apply off_b in OF. split; [left; intros X; eapply off_login; eauto|]. split; congruence. }
  destruct (nonempty (sc_user m)) eqn:U, (nonempty (sc_pass m)) eqn:P; cbn [negb orb] in A.
  2,3,4: right; split; [right; destruct (sc_user m), (sc_pass m); cbn [nonempty] in *; auto; discriminate|split; congruence].
  apply nonempty_b in U, P. destruct (leqb (o_auth o) s_login) eqn:LG.
  - apply login_b in LG. destruct (getpw e (lower (sc_user m))) as [[u g]|] eqn:G; [|discriminate]. left. split; [exact LG|]. split; [exact U|]. split; [exact P|].
    exists u, g. split; [reflexivity|]. split; congruence.
  - right. split; [left; intros X; apply login_b in X; congruence|]. split; congruence.
Qed.
Print Assumptions sess_runs_as.

(** Object names are not case sensitive, user names given as credentials
    neither, for all of Latin-1. *)
Lemma upper_lower1 : forall c, 0 <= c < 256 -> upper1 (lower1 c) = upper1 c.
Proof.
  intros c H. assert (X : exists n, c = Z.of_nat n /\ (n < 256)%nat) by (exists (Z.to_nat c); lia). destruct X as (n & -> & N).
  assert (F : forallb (fun n => leqb (upper1 (lower1 (Z.of_nat n))) (upper1 (Z.of_nat n))) (seq 0 256) = true) by (vm_compute; reflexivity).
  rewrite forallb_forall in F. apply leqb_eq. apply F. apply in_seq. lia.
Qed.
Theorem sess_name_case : forall s a b o, latin1 a -> latin1 b -> lower a = lower b -> (stands_for s (EU1 a) o <-> stands_for s (EU1 b) o).
Proof.
  assert (U : forall l, latin1 l -> upper (lower l) = upper l).
  { intros l L. induction L as [|c l H L IH]; [reflexivity|]. unfold upper, lower in *. cbn [map flat_map]. rewrite IH, upper_lower1 by exact H. reflexivity. }
  intros s a b o A B E. cbn [stands_for]. rewrite <- (U a A), <- (U b B), E. tauto.
Qed.
Print Assumptions sess_name_case.
(** The letters: the two cases of one letter differ by 32. *)
Theorem sess_letters : forall c, 0 <= c < 256 ->
  (65 <= c <= 90 \/ (192 <= c <= 222 /\ c <> 215)) <-> (lower [c] = [c + 32] /\ upper [c + 32] = [c] /\ lower [c] <> [c]).
Proof.
  intros c H. cbn [lower map upper flat_map]. unfold lower1, upper1. split; intros K.
  - destruct K as [K|[K N]].
    + replace ((65 <=? c) && (c <=? 90)) with true by lia. replace ((97 <=? c + 32) && (c + 32 <=? 122)) with true by lia. cbn [app]. replace (c + 32 - 32) with c by lia. repeat split. intros E. injection E. lia.
    + replace ((65 <=? c) && (c <=? 90)) with false by lia. replace ((192 <=? c) && (c <=? 222) && negb (c =? 215)) with true by lia. replace ((97 <=? c + 32) && (c + 32 <=? 122)) with false by lia.
      replace (c + 32 =? 223) with false by lia. replace (c + 32 =? 255) with false by lia. replace (c + 32 =? 181) with false by lia. replace ((224 <=? c + 32) && (c + 32 <=? 254) && negb (c + 32 =? 247)) with true by lia. cbn [app]. replace (c + 32 - 32) with c by lia. repeat split. intros E. injection E. lia.
  - destruct K as (K & _ & N). destruct ((65 <=? c) && (c <=? 90)) eqn:A; [lia|]. destruct ((192 <=? c) && (c <=? 222) && negb (c =? 215)) eqn:B; [lia|]. contradiction N. reflexivity.
Qed.
Print Assumptions sess_letters.
(** Three small letters have no capital in Latin-1: sharp s becomes SS, the
    others leave Latin-1 (so that no name in capitals matches them). *)
Theorem sess_special_letters : forall c, 0 <= c < 256 -> lower [c] = [c] ->
  (exists u, upper [c] = [u] /\ u < 256) <-> (c <> 223 /\ c <> 255 /\ c <> 181).
Proof.
  intros c H L. cbn [upper flat_map]. rewrite app_nil_r. unfold upper1. split.
  - intros (u & E & U). repeat split; intros -> ; cbn in E; inversion E; lia.
  - intros (A & B & C). destruct ((97 <=? c) && (c <=? 122)); [eexists; split; [reflexivity|lia]|]. replace (c =? 223) with false by lia. replace (c =? 255) with false by lia. replace (c =? 181) with false by lia.
    destruct ((224 <=? c) && (c <=? 254) && negb (c =? 247)); eexists; (split; [reflexivity|lia]).
Qed.
Print Assumptions sess_special_letters.
Example sess_special_ex : upper [223; 255; 181] = [83; 83; 376; 924].
Proof. reflexivity. Qed.

(** An object with login authentication and one without, with right and wrong
    credentials. *)
Definition ex_env : env := {| pam_present := true; pam := fun u p => leqb u [97] && leqb p [66]; getpw := fun u => if leqb u [97] then Some (501, 20) else None |}.
Definition ex_init : sess := sess_init [CObj KFile 17 [102; 97; 108] s_login None 0; CObj KModule 19 [78; 77; 76] s_off None 0].
Definition ex_ci (u p : list Z) : list Z := [1; 0; 3; 70; 97; 76; 0; 1; 1] ++ zlen u :: u ++ zlen p :: p ++ [0].
Example sess_access_ex :
  (exists s a o, sess_in ex_env ex_init 1 (ex_ci [65] [66]) StOk true = Ok (s, [OStart a o (Some 501) 20; OItem a 3 (AConnect [65] true [] [])])) /\
  sess_in ex_env ex_init 1 (ex_ci [65] [67]) StOk true = Ok (ex_init, [OAuthEvent 1; OReject 1 34]) /\
  sess_in ex_env ex_init 1 (ex_ci [65] []) StOk true = Ok (ex_init, [OAuthEvent 1; OReject 1 34]) /\
  sess_in ex_env ex_init 1 [0; 18; 0; 1; 0] StOk true = Ok (ex_init, [OReject 1 4]).
Proof. split; [eexists _, _, _; vm_compute; reflexivity|]. split; [vm_compute; reflexivity|]. split; vm_compute; reflexivity. Qed.

