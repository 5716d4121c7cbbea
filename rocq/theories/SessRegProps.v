(** C41 and C55: the object registry, and the delivery of messages to the
    applications that own the connections. *)
From Verif Require Import Base Dict PacketModel SessPktModel SessPktProps SessModel SessProps.

(** ** Specification *)
(** What happened: each step with its outputs. *)
Definition hist := list (sstep * list sout).
Definition outs (h : hist) : list sout := flat_map snd h.
(** The application's connector has run its exception handler: the
    application failed or exited. *)
Definition gone (h : hist) (a : Z) : Prop := In (OCleanup a) (outs h).
Definition refused (h : hist) (n : Z) : Prop := exists r, In (OReject n r) (outs h).
Definition isapp (s : sess) (a : Z) : Prop := exists d, dget Z.eqb (s_apps s) a = Some d.
(** A step that fits the history: requests and exits come from applications
    that exist and have not failed or exited before; NSP says nothing more on
    a connection that was refused, and gives new connections new identities;
    names are registered in upper case. *)
Definition fits (s : sess) (h : hist) (x : sstep) : Prop :=
  match x with
  | SIn _ p _ _ => bytes_ok p
  | SItem n _ _ => ~ refused h n
  | SReq a r _ => isapp s a /\ ~ gone h a /\
      match r with RBind _ name _ => upper name = name | RConnect n NOk => dget Z.eqb (s_conns s) n = None | _ => True end
  | SExit a => isapp s a /\ ~ gone h a
  | _ => True
  end.
Inductive reach (e : env) (s0 : sess) : sess -> hist -> Prop :=
| r_init : reach e s0 s0 []
| r_step : forall s h x s' o, reach e s0 s h -> fits s h x -> sess_step e s x = Ok (s', o) -> reach e s0 s' (h ++ [(x, o)]).
(** The objects of an application. *)
Definition owned (a : Z) (o : obj) : Prop := o_kind o = KApi a.
Definition ownedb (a : Z) (o : obj) : bool := match o_kind o with KApi b => b =? a | _ => false end.
(** A table without the objects of [a]. *)
Definition without (a : Z) (o : option obj) : option obj := match o with Some x => if ownedb a x then None else Some x | None => None end.
Definition cwithout (a : Z) (c : option sconn) : option sconn :=
  match c with Some x => match c_client x with Some b => if b =? a then None else Some x | None => Some x end | None => None end.

(** Who a connection belongs to, read off the history: the application that
    was told about the incoming connection, or that opened it, with its handle
    for it; until it is closed, disconnected or aborted. *)
Definition told (o : list sout) : option (Z * Z) :=
  fold_left (fun r y => match y with OItem a k (AConnect _ _ _ _) => Some (a, k) | OReply a (PConnecting k) => Some (a, k) | _ => r end) o None.
Definition opened (x : sstep) (o : list sout) (n : Z) : option (Z * Z) :=
  match x with
  | SIn m _ _ _ => if m =? n then told o else None
  | SReq _ (RConnect m _) _ => if m =? n then told o else None
  | _ => None
  end.
Definition shut (x : sstep) (o : list sout) (n : Z) : bool :=
  (match x with SItem m (NIDisc _ _ _) _ => m =? n | _ => false end)
  || existsb (fun y => match y with OClose m | OAbort m => m =? n | _ => false end) o.
Definition owner1 (w : Z -> option (Z * Z)) (p : sstep * list sout) (n : Z) : option (Z * Z) :=
  if shut (fst p) (snd p) n then None else match opened (fst p) (snd p) n with Some v => Some v | None => w n end.
Definition owner (h : hist) : Z -> option (Z * Z) := fold_left owner1 h (fun _ => None).

(** ** Invariant: [G] applications gone, [R] connections refused, [w] owners *)
Record inv (G R : Z -> Prop) (w : Z -> option (Z * Z)) (s : sess) : Prop := {
  i_num : forall k o, numget (s_num s) k = Some o -> o_num o = k /\ k <> 0;
  i_name : forall k o, nameget (s_name s) k = Some o -> o_name o = k /\ k <> [];
  i_own : forall o a, o_kind o = KApi a -> numget (s_num s) (o_num o) = Some o \/ nameget (s_name s) (o_name o) = Some o ->
          isapp s a /\ ~ G a /\ dget Z.eqb (appget s a) (o_id o) = Some (EListen o);
  i_lis : forall a k o, ~ G a -> dget Z.eqb (appget s a) k = Some (EListen o) ->
          o_id o = k /\ o_kind o = KApi a /\ (o_num o <> 0 -> numget (s_num s) (o_num o) = Some o) /\ (o_name o <> [] -> nameget (s_name s) (o_name o) = Some o);
  i_con : forall a k n, ~ G a -> dget Z.eqb (appget s a) k = Some (EConn n) -> dget Z.eqb (s_conns s) n = Some {| c_handle := k; c_client := Some a |};
  i_cli : forall n c, dget Z.eqb (s_conns s) n = Some c ->
          match c_client c with Some a => isapp s a /\ ~ G a /\ dget Z.eqb (appget s a) (c_handle c) = Some (EConn n) | None => R n end;
  i_keys : forall a, NoDup (dkeys (appget s a));
  i_lt : forall a k x, dget Z.eqb (appget s a) k = Some x -> k < s_next s;
  i_app : forall a, isapp s a -> a < s_next s;
  i_gone : forall a, G a -> isapp s a;
  i_ow : forall n, w n = match dget Z.eqb (s_conns s) n with Some {| c_handle := k; c_client := Some a |} => Some (a, k) | _ => None end
}.

(** ** Lemmas *)
Lemma gone_app : forall h x o a, gone (h ++ [(x, o)]) a <-> gone h a \/ In (OCleanup a) o.
Proof. intros. unfold gone, outs. rewrite flat_map_app, in_app_iff. cbn [flat_map snd]. rewrite app_nil_r. reflexivity. Qed.
Lemma refused_app : forall h x o n, refused h n \/ (exists r, In (OReject n r) o) -> refused (h ++ [(x, o)]) n.
Proof. intros h x o n H. unfold refused, outs in *. rewrite flat_map_app. cbn [flat_map snd]. rewrite app_nil_r. destruct H as [[r H]|[r H]]; exists r; apply in_or_app; auto. Qed.
Lemma appget_set : forall s a d b, appget (setapp s a d) b = if b =? a then d else appget s b.
Proof. intros. unfold appget, setapp. cbn [with_apps s_apps]. rewrite (dget_dset Z.eqb decides_Z). destruct (b =? a); reflexivity. Qed.
Lemma isapp_set : forall s a d b, isapp (setapp s a d) b <-> b = a \/ isapp s b.
Proof.
  intros. unfold isapp, setapp. cbn [with_apps s_apps]. rewrite (dget_dset Z.eqb decides_Z). destruct (b =? a) eqn:E.
  - apply Z.eqb_eq in E. split; [auto|]. intros _. eauto.
  - apply Z.eqb_neq in E. split; [auto|]. intros [X|X]; [contradiction|exact X].
Qed.
Lemma appget_none : forall s a, ~ isapp s a -> appget s a = [].
Proof. intros s a H. unfold appget. destruct (dget Z.eqb (s_apps s) a) as [d|] eqn:E; [exfalso; apply H; exists d; exact E|reflexivity]. Qed.
Lemma ownedb_spec : forall a o, ownedb a o = true <-> owned a o.
Proof. intros a o. unfold ownedb, owned. destruct (o_kind o); split; intros H; try discriminate; [apply Z.eqb_eq in H; congruence|injection H as ->; apply Z.eqb_refl]. Qed.

(** The exception handler over a list of entries that are all in the tables. *)
Definition tabled (s : sess) (l : list (Z * entry)) : Prop := forall k x, In (k, x) l ->
  match x with
  | EListen o => o_id o = k /\ (o_num o <> 0 -> numget (s_num s) (o_num o) = Some o) /\ (o_name o <> [] -> nameget (s_name s) (o_name o) = Some o)
  | EConn n => exists c, dget Z.eqb (s_conns s) n = Some c /\ c_handle c = k
  end.
Definition hits_num (l : list (Z * entry)) (k : Z) : Prop := k <> 0 /\ exists h o, In (h, EListen o) l /\ o_num o = k.
Definition hits_name (l : list (Z * entry)) (k : list Z) : Prop := k <> [] /\ exists h o, In (h, EListen o) l /\ o_name o = k.
Definition hits_conn (l : list (Z * entry)) (n : Z) : Prop := exists h, In (h, EConn n) l.

Lemma unregister_ok : forall s o, (o_num o <> 0 -> numget (s_num s) (o_num o) = Some o) -> (o_name o <> [] -> nameget (s_name s) (o_name o) = Some o) ->
  exists s', unregister s o = (s', None) /\
    (forall k, numget (s_num s') k = if (k =? o_num o) && negb (k =? 0) then None else numget (s_num s) k) /\
    (forall k, nameget (s_name s') k = if leqb k (o_name o) && nonempty k then None else nameget (s_name s) k) /\
    s_conns s' = s_conns s /\ s_apps s' = s_apps s /\ s_next s' = s_next s.
Proof.
  intros s o A B. unfold unregister.
  assert (N0 : forall (d : dict Z obj) k, k <> 0 -> forall x, (x =? k) && negb (x =? 0) = (x =? k)) by (intros; lia).
  destruct (o_num o =? 0) eqn:E0.
  - apply Z.eqb_eq in E0. destruct (o_name o) as [|c n] eqn:EN.
    + exists s. split; [reflexivity|]. split; [intros k; rewrite E0; destruct (k =? 0); reflexivity|]. split; [intros [|x k]; reflexivity|]. auto.
    + rewrite <- EN in *. unfold del. fold nameget. rewrite B by congruence. eexists. split; [reflexivity|]. cbn [with_name s_num s_name s_conns s_apps s_next].
      split; [intros k; rewrite E0; destruct (k =? 0); reflexivity|]. split; [|auto]. intros k. unfold nameget. rewrite (dget_ddel leqb decides_leqb).
      destruct (leqb k (o_name o)) eqn:X; [|reflexivity]. apply leqb_eq in X. subst k. rewrite EN. reflexivity.
  - apply Z.eqb_neq in E0. unfold del at 1. fold numget. rewrite (A E0). cbn [bind].
    assert (NK : forall k, numget (ddel Z.eqb (s_num s) (o_num o)) k = (if (k =? o_num o) && negb (k =? 0) then None else numget (s_num s) k)).
    { intros k. unfold numget. rewrite (dget_ddel Z.eqb decides_Z). destruct (k =? o_num o) eqn:X; [|reflexivity]. apply Z.eqb_eq in X. subst k. destruct (o_num o =? 0) eqn:Y; [lia|reflexivity]. }
    destruct (o_name o) as [|c n] eqn:EN.
    + eexists. split; [reflexivity|]. cbn [with_num s_num s_name s_conns s_apps s_next]. split; [exact NK|]. split; [intros [|x k]; reflexivity|]. auto.
    + rewrite <- EN in *. unfold del. cbn [with_num s_name]. fold nameget. rewrite B by congruence. eexists. split; [reflexivity|]. cbn [with_num with_name s_num s_name s_conns s_apps s_next].
      split; [exact NK|]. split; [|auto]. intros k. unfold nameget. rewrite (dget_ddel leqb decides_leqb).
      destruct (leqb k (o_name o)) eqn:X; [|reflexivity]. apply leqb_eq in X. subst k. rewrite EN. reflexivity.
Qed.

Lemma cleanup_loop_ok : forall l s, NoDup (map fst l) -> tabled s l ->
  exists s' o, cleanup_loop s (map snd l) = (s', o, None) /\ s_apps s' = s_apps s /\ s_next s' = s_next s /\
    (forall k, (hits_num l k -> numget (s_num s') k = None) /\ (~ hits_num l k -> numget (s_num s') k = numget (s_num s) k)) /\
    (forall k, (hits_name l k -> nameget (s_name s') k = None) /\ (~ hits_name l k -> nameget (s_name s') k = nameget (s_name s) k)) /\
    (forall n, (hits_conn l n -> dget Z.eqb (s_conns s') n = None /\ In (OAbort n) o) /\ (~ hits_conn l n -> dget Z.eqb (s_conns s') n = dget Z.eqb (s_conns s) n)) /\
    (forall x, In x o -> exists n, x = OAbort n /\ hits_conn l n).
Proof.
  induction l as [|[h e] l IH]; intros s ND T; cbn [map snd cleanup_loop].
  - exists s, []. split; [reflexivity|]. split; [reflexivity|]. split; [reflexivity|].
    split; [intros k; split; [intros (_ & h & o & I0 & _); destruct I0|reflexivity]|].
    split; [intros k; split; [intros (_ & h & o & I0 & _); destruct I0|reflexivity]|].
    split; [intros n; split; [intros (h & I0); destruct I0|reflexivity]|]. intros x [].
  - cbn [map fst] in ND. inversion ND as [|? ? NI ND2]; subst. pose proof (T h e (or_introl eq_refl)) as TH.
    assert (NIN : forall x, ~ In (h, x) l) by (intros x X; apply NI; apply in_map_iff; exists (h, x); auto).
    destruct e as [n|ob].
    + destruct TH as (c & C1 & C2). unfold del. rewrite C1.
      destruct (IH (with_conns s (ddel Z.eqb (s_conns s) n)) ND2) as (s' & o & E & EA & EX & HN & HM & HC & HO).
      { intros k x I0. specialize (T k x (or_intror I0)). destruct x as [n2|o2]; [|exact T]. destruct T as (c2 & D1 & D2). cbn [with_conns s_conns].
        rewrite (dget_ddel_other Z.eqb decides_Z); [exists c2; auto|]. intros ->. assert (c2 = c) by congruence. subst c2. rewrite C2 in D2. subst k. exact (NIN _ I0). }
      rewrite E. exists s', (OAbort n :: o). split; [reflexivity|]. split; [exact EA|]. split; [exact EX|].
      split; [intros k; destruct (HN k) as [P Q]; split; [intros (K0 & h2 & o2 & [X|X] & Y); [discriminate|]; apply P; split; eauto|intros N; apply Q; intros (K0 & h2 & o2 & X & Y); apply N; split; [exact K0|]; exists h2, o2; split; [right; exact X|exact Y]]|].
      split; [intros k; destruct (HM k) as [P Q]; split; [intros (K0 & h2 & o2 & [X|X] & Y); [discriminate|]; apply P; split; eauto|intros N; apply Q; intros (K0 & h2 & o2 & X & Y); apply N; split; [exact K0|]; exists h2, o2; split; [right; exact X|exact Y]]|].
      split.
      * intros m. destruct (HC m) as [P Q]. cbn [with_conns s_conns] in Q. split.
        -- intros (h2 & [X|X]).
           ++ injection X as <- <-. split; [|left; reflexivity]. rewrite Q; [apply (dget_ddel_same Z.eqb)|]. intros (h3 & X3).
              specialize (T h3 _ (or_intror X3)). cbn in T. destruct T as (c3 & D1 & D2). assert (c3 = c) by congruence. subst c3. rewrite C2 in D2. subst h3. exact (NIN _ X3).
           ++ destruct (P (ex_intro _ h2 X)) as [A B]. split; [exact A|right; exact B].
        -- intros N. rewrite Q; [|intros (h2 & X); apply N; exists h2; right; exact X]. apply (dget_ddel_other Z.eqb decides_Z). intros ->. apply N. exists h. left. reflexivity.
      * intros x [<- |X]; [exists n; split; [reflexivity|]; exists h; left; reflexivity|]. destruct (HO x X) as (m & -> & (h2 & Y)). exists m. split; [reflexivity|]. exists h2. right. exact Y.
    + destruct TH as (T1 & T2 & T3). destruct (unregister_ok s ob T2 T3) as (s1 & E1 & U1 & U2 & U3 & U4 & U5). rewrite E1.
      destruct (IH s1 ND2) as (s' & o & E & EA & EX & HN & HM & HC & HO).
      { intros k x I0. specialize (T k x (or_intror I0)). destruct x as [n2|o2]; [rewrite U3; exact T|]. destruct T as (D1 & D2 & D3). split; [exact D1|]. split.
        - intros Z0. rewrite U1. destruct ((o_num o2 =? o_num ob) && negb (o_num o2 =? 0)) eqn:X; [|auto]. assert (Y : o_num o2 = o_num ob) by lia.
          pose proof (D2 Z0) as P1. rewrite Y in P1. rewrite T2 in P1 by lia. assert (ob = o2) by congruence. subst o2. rewrite T1 in D1. subst k. exfalso. exact (NIN _ I0).
        - intros Z0. rewrite U2. destruct (leqb (o_name o2) (o_name ob) && nonempty (o_name o2)) eqn:X; [|auto]. apply andb_true_iff in X. destruct X as [X _]. apply leqb_eq in X.
          pose proof (D3 Z0) as P1. rewrite X in P1. rewrite T3 in P1 by congruence. assert (ob = o2) by congruence. subst o2. rewrite T1 in D1. subst k. exfalso. exact (NIN _ I0). }
      rewrite E. exists s', o. split; [reflexivity|]. split; [congruence|]. split; [congruence|].
      split; [|split; [|split]].
      * intros k. destruct (HN k) as [P Q]. specialize (U1 k). split.
        -- intros (K0 & h2 & o2 & [X|X] & Y).
           ++ injection X as <- <-. assert (G : numget (s_num s1) k = None) by (rewrite U1; replace ((k =? o_num ob) && negb (k =? 0)) with true by lia; reflexivity).
              destruct (numget (s_num s') k) as [z|] eqn:Z0; [|reflexivity]. exfalso.
              assert (NH : ~ hits_num l k) by (intros W; pose proof (P W); congruence). pose proof (Q NH). congruence.
           ++ apply P. split; [exact K0|]. exists h2, o2. auto.
        -- intros N. rewrite Q; [|intros (K0 & h2 & o2 & X & Y); apply N; split; [exact K0|]; exists h2, o2; split; [right; exact X|exact Y]].
           rewrite U1. destruct ((k =? o_num ob) && negb (k =? 0)) eqn:X; [|reflexivity]. exfalso. apply N. split; [lia|]. exists h, ob. split; [left; reflexivity|lia].
      * intros k. destruct (HM k) as [P Q]. specialize (U2 k). split.
        -- intros (K0 & h2 & o2 & [X|X] & Y).
           ++ injection X as <- <-. assert (G : nameget (s_name s1) k = None) by (rewrite U2; rewrite <- Y; rewrite (proj2 (leqb_eq _ _) eq_refl); rewrite (proj2 (nonempty_b _)) by congruence; reflexivity).
              destruct (nameget (s_name s') k) as [z|] eqn:Z0; [|reflexivity]. exfalso.
              assert (NH : ~ hits_name l k) by (intros W; pose proof (P W); congruence). pose proof (Q NH). congruence.
           ++ apply P. split; [exact K0|]. exists h2, o2. auto.
        -- intros N. rewrite Q; [|intros (K0 & h2 & o2 & X & Y); apply N; split; [exact K0|]; exists h2, o2; split; [right; exact X|exact Y]].
           rewrite U2. destruct (leqb k (o_name ob) && nonempty k) eqn:X; [|reflexivity]. exfalso. apply andb_true_iff in X. destruct X as [X1 X2]. apply leqb_eq in X1. apply nonempty_b in X2. apply N. split; [exact X2|]. exists h, ob. split; [left; reflexivity|auto].
      * intros m. destruct (HC m) as [P Q]. rewrite U3 in Q. split.
        -- intros (h2 & [X|X]); [discriminate|]. apply P. exists h2. exact X.
        -- intros N. apply Q. intros (h2 & X). apply N. exists h2. right. exact X.
      * intros x X. destruct (HO x X) as (m & -> & (h2 & Y)). exists m. split; [reflexivity|]. exists h2. right. exact Y.
Qed.

(** ** The invariant and the operations on the state *)
Lemma inv_weak : forall G R w s (G' R' : Z -> Prop) w', inv G R w s -> (forall a, G' a <-> G a) -> (forall n, R n -> R' n) -> (forall n, w' n = w n) -> inv G' R' w' s.
Proof.
  intros G R w s G' R' w' V EG ER EW. destruct V as [A B C D E F K L M N O]. split; auto.
  - intros o a X Y. destruct (C o a X Y) as (P & Q & S0). rewrite EG. auto.
  - intros a k o X. rewrite EG in X. auto.
  - intros a k n X. rewrite EG in X. auto.
  - intros n c X. specialize (F n c X). destruct (c_client c); [rewrite EG; auto|auto].
  - intros a X. apply EG in X. auto.
  - intros n. rewrite EW. auto.
Qed.
Lemma inv_bump : forall G R w s, inv G R w s -> inv G R w (bump s).
Proof.
  intros G R w s V. destruct V as [A B C D E F K L M N O]. split; auto.
  - intros a k x X. specialize (L a k x X). cbn [bump s_next]. lia.
  - intros a X. specialize (M a X). cbn [bump s_next]. lia.
Qed.
Lemma appget_open : forall s b, (forall a, isapp s a -> a < s_next s) -> appget (setapp s (s_next s) []) b = appget s b.
Proof.
  intros s b M. rewrite appget_set. destruct (b =? s_next s) eqn:E; [|reflexivity]. apply Z.eqb_eq in E. subst b. symmetry. apply appget_none. intros X. specialize (M _ X). lia.
Qed.
Lemma inv_open : forall G R w s, inv G R w s -> inv G R w (bump (setapp s (s_next s) [])).
Proof.
  intros G R w s V. pose proof V as [A B C D E F K L M N O].
  assert (AG : forall b, appget (bump (setapp s (s_next s) [])) b = appget s b) by (intros b; exact (appget_open s b M)).
  assert (IA : forall b, isapp s b -> isapp (bump (setapp s (s_next s) [])) b) by (intros b X; apply (isapp_set s (s_next s) [] b); auto).
  split; auto.
  - intros o a X Y. destruct (C o a X Y) as (P & Q & S0). rewrite AG. auto.
  - intros a k o. rewrite AG. auto.
  - intros a k n. rewrite AG. apply E.
  - intros n c X. specialize (F n c X). destruct (c_client c) as [a|]; [|auto]. rewrite AG. destruct F as (P & Q & S0). auto.
  - intros a. rewrite AG. auto.
  - intros a k x. rewrite AG. intros X. specialize (L a k x X). change (k < s_next s + 1). lia.
  - intros a X. change (a < s_next s + 1). apply (isapp_set s (s_next s) [] a) in X. destruct X as [-> |X]; [lia|]. specialize (M a X). lia.
Qed.
Lemma G_dec_eq : forall a b : Z, a = b \/ a <> b.
Proof. intros. lia. Qed.
Lemma inv_conn : forall G R w w' s a k n, inv G R w s -> isapp s a -> ~ G a -> dget Z.eqb (s_conns s) n = None -> dget Z.eqb (appget s a) k = None -> k < s_next s ->
  (forall m, w' m = if m =? n then Some (a, k) else w m) ->
  inv G R w' (setapp (with_conns s (dset Z.eqb (s_conns s) n {| c_handle := k; c_client := Some a |})) a (dset Z.eqb (appget s a) k (EConn n))).
Proof.
  intros G R w w' s a k n V IS NG NC NK LT EW. pose proof V as [A B C D E F K L M N O].
  set (s1 := with_conns s (dset Z.eqb (s_conns s) n {| c_handle := k; c_client := Some a |})).
  assert (AG : forall b, appget (setapp s1 a (dset Z.eqb (appget s a) k (EConn n))) b = if b =? a then dset Z.eqb (appget s a) k (EConn n) else appget s b) by (intros b; apply (appget_set s1)).
  assert (IA : forall b, isapp (setapp s1 a (dset Z.eqb (appget s a) k (EConn n))) b <-> isapp s b).
  { intros b. rewrite isapp_set. split; [intros [-> |X]; auto|auto]. }
  assert (GE : forall b j, dget Z.eqb (appget (setapp s1 a (dset Z.eqb (appget s a) k (EConn n))) b) j = if (b =? a) && (j =? k) then Some (EConn n) else dget Z.eqb (appget s b) j).
  { intros b j. rewrite AG. destruct (b =? a) eqn:X; [|reflexivity]. apply Z.eqb_eq in X. subst b. rewrite (dget_dset Z.eqb decides_Z). reflexivity. }
  assert (CE : forall m, dget Z.eqb (s_conns (setapp s1 a (dset Z.eqb (appget s a) k (EConn n)))) m = if m =? n then Some {| c_handle := k; c_client := Some a |} else dget Z.eqb (s_conns s) m).
  { intros m. exact (dget_dset Z.eqb decides_Z _ _ _ _). }
  assert (KEEP : forall b j x, dget Z.eqb (appget s b) j = Some x -> (b =? a) && (j =? k) = false).
  { intros b j x X. destruct ((b =? a) && (j =? k)) eqn:Y; [|reflexivity]. assert (b = a) by lia. assert (j = k) by lia. subst. congruence. }
  split; auto.
  - intros o b X Y. destruct (C o b X Y) as (P & Q & S0). rewrite IA, GE, (KEEP _ _ _ S0). auto.
  - intros b j o Q X. rewrite GE in X. destruct ((b =? a) && (j =? k)); [discriminate|]. apply D; auto.
  - intros b j m Q X. rewrite GE in X. rewrite CE. destruct ((b =? a) && (j =? k)) eqn:Y.
    + assert (b = a) by lia. assert (j = k) by lia. subst. injection X as ->. rewrite Z.eqb_refl. reflexivity.
    + pose proof (E b j m Q X) as X2. destruct (m =? n) eqn:Z1; [|exact X2]. apply Z.eqb_eq in Z1. subst m. congruence.
  - intros m c X. rewrite CE in X. destruct (m =? n) eqn:Z1.
    + apply Z.eqb_eq in Z1. subst m. injection X as <-. cbn [c_client c_handle]. rewrite IA, GE, !Z.eqb_refl. auto.
    + specialize (F m c X). destruct (c_client c) as [b|]; [|exact F]. destruct F as (P & Q & S0). rewrite IA, GE, (KEEP _ _ _ S0). auto.
  - intros b. rewrite AG. destruct (b =? a); [|auto]. apply (NoDup_dset Z.eqb decides_Z). auto.
  - intros b j x X. rewrite GE in X. change (j < s_next s). destruct ((b =? a) && (j =? k)) eqn:Y; [lia|]. eapply L; eauto.
  - intros b X. apply IA in X. exact (M b X).
  - intros b X. apply IA. auto.
  - intros m. rewrite EW, CE. destruct (m =? n); [reflexivity|]. apply O.
Qed.
Lemma inv_delconn : forall G R w w' s a k n, inv G R w s -> ~ G a -> dget Z.eqb (appget s a) k = Some (EConn n) ->
  (forall m, w' m = if m =? n then None else w m) ->
  inv G R w' (setapp (with_conns s (ddel Z.eqb (s_conns s) n)) a (ddel Z.eqb (appget s a) k)).
Proof.
  intros G R w w' s a k n V NG HK EW. pose proof V as [A B C D E F K L M N O].
  assert (IS : isapp s a).
  { unfold isapp. unfold appget in HK. destruct (dget Z.eqb (s_apps s) a) as [d|]; [eauto|discriminate]. }
  pose proof (E a k n NG HK) as HC.
  set (s1 := with_conns s (ddel Z.eqb (s_conns s) n)).
  assert (AG : forall b, appget (setapp s1 a (ddel Z.eqb (appget s a) k)) b = if b =? a then ddel Z.eqb (appget s a) k else appget s b) by (intros b; apply (appget_set s1)).
  assert (IA : forall b, isapp (setapp s1 a (ddel Z.eqb (appget s a) k)) b <-> isapp s b).
  { intros b. rewrite isapp_set. split; [intros [-> |X]; auto|auto]. }
  assert (GE : forall b j, dget Z.eqb (appget (setapp s1 a (ddel Z.eqb (appget s a) k)) b) j = if (b =? a) && (j =? k) then None else dget Z.eqb (appget s b) j).
  { intros b j. rewrite AG. destruct (b =? a) eqn:X; [|reflexivity]. apply Z.eqb_eq in X. subst b. rewrite (dget_ddel Z.eqb decides_Z). reflexivity. }
  assert (CE : forall m, dget Z.eqb (s_conns (setapp s1 a (ddel Z.eqb (appget s a) k))) m = if m =? n then None else dget Z.eqb (s_conns s) m).
  { intros m. exact (dget_ddel Z.eqb decides_Z _ _ _). }
  split; auto.
  - intros o b X Y. destruct (C o b X Y) as (P & Q & S0). rewrite IA, GE. split; [exact P|]. split; [exact Q|].
    destruct ((b =? a) && (o_id o =? k)) eqn:Z1; [|exact S0]. assert (Z2 : b = a) by lia. assert (Z3 : o_id o = k) by lia. rewrite Z2, Z3 in S0. congruence.
  - intros b j o Q X. rewrite GE in X. destruct ((b =? a) && (j =? k)); [discriminate|]. apply D; auto.
  - intros b j m Q X. rewrite GE in X. rewrite CE. destruct ((b =? a) && (j =? k)) eqn:Y; [discriminate|].
    pose proof (E b j m Q X) as X2. destruct (m =? n) eqn:Z1; [|exact X2]. apply Z.eqb_eq in Z1. subst m. rewrite HC in X2. injection X2 as Z2 Z3. lia.
  - intros m c X. rewrite CE in X. destruct (m =? n) eqn:Z1; [discriminate|].
    specialize (F m c X). destruct (c_client c) as [b|]; [|exact F]. destruct F as (P & Q & S0). rewrite IA, GE. split; [exact P|]. split; [exact Q|].
    destruct ((b =? a) && (c_handle c =? k)) eqn:Z2; [|exact S0]. assert (Z3 : b = a) by lia. assert (Z4 : c_handle c = k) by lia. rewrite Z3, Z4 in S0. assert (EConn n = EConn m) by congruence. injection H as H. lia.
  - intros b. rewrite AG. destruct (b =? a); [|auto]. apply (NoDup_ddel Z.eqb decides_Z). auto.
  - intros b j x X. rewrite GE in X. change (j < s_next s). destruct ((b =? a) && (j =? k)) eqn:Y; [discriminate|]. eapply L; eauto.
  - intros b X. apply IA in X. exact (M b X).
  - intros b X. apply IA. auto.
  - intros m. rewrite EW, CE. destruct (m =? n); [reflexivity|]. apply O.
Qed.
Lemma inv_orphan : forall G (R : Z -> Prop) w s n k, inv G R w s -> dget Z.eqb (s_conns s) n = None -> R n ->
  inv G R w (with_conns s (dset Z.eqb (s_conns s) n {| c_handle := k; c_client := None |})).
Proof.
  intros G R w s n k V NC RN. pose proof V as [A B C D E F K L M N O].
  assert (CE : forall m, dget Z.eqb (s_conns (with_conns s (dset Z.eqb (s_conns s) n {| c_handle := k; c_client := None |}))) m = if m =? n then Some {| c_handle := k; c_client := None |} else dget Z.eqb (s_conns s) m).
  { intros m. exact (dget_dset Z.eqb decides_Z _ _ _ _). }
  split; auto.
  - intros b j m Q X. pose proof (E b j m Q X) as X2. rewrite CE. destruct (m =? n) eqn:Z1; [|exact X2]. apply Z.eqb_eq in Z1. subst m. congruence.
  - intros m c X. rewrite CE in X. destruct (m =? n) eqn:Z1; [|exact (F m c X)]. apply Z.eqb_eq in Z1. subst m. injection X as <-. exact RN.
  - intros m. rewrite CE. destruct (m =? n) eqn:Z1; [|apply O]. apply Z.eqb_eq in Z1. subst m. rewrite O, NC. reflexivity.
Qed.
Lemma register_num : forall s o k, numget (s_num (register s o)) k = if (k =? o_num o) && negb (k =? 0) then Some o else numget (s_num s) k.
Proof.
  intros s o k. unfold register. set (s1 := match o_name o with [] => s | _ => _ end). assert (E1 : s_num s1 = s_num s) by (unfold s1; destruct (o_name o); reflexivity).
  destruct (o_num o =? 0) eqn:Z0.
  - rewrite E1. destruct ((k =? o_num o) && negb (k =? 0)) eqn:X; [lia|reflexivity].
  - cbn [with_num s_num]. rewrite E1. unfold numget. rewrite (dget_dset Z.eqb decides_Z). destruct (k =? o_num o) eqn:X; [|reflexivity]. destruct (k =? 0) eqn:Y; [lia|reflexivity].
Qed.
Lemma register_name : forall s o k, nameget (s_name (register s o)) k = if leqb k (o_name o) && nonempty k then Some o else nameget (s_name s) k.
Proof.
  intros s o k. unfold register.
  assert (X : forall x y : sess, (if o_num o =? 0 then x else with_num x (dset Z.eqb (s_num y) (o_num o) o)) = (if o_num o =? 0 then x else with_num x (dset Z.eqb (s_num y) (o_num o) o))) by reflexivity.
  destruct (o_name o) as [|c nm] eqn:EN.
  - replace (leqb k [] && nonempty k) with false by (destruct k; reflexivity). destruct (o_num o =? 0); reflexivity.
  - rewrite <- EN. assert (Y : nameget (dset leqb (s_name s) (o_name o) o) k = if leqb k (o_name o) && nonempty k then Some o else nameget (s_name s) k).
    { unfold nameget. rewrite (dget_dset leqb decides_leqb). destruct (leqb k (o_name o)) eqn:Z0; [|reflexivity]. apply leqb_eq in Z0. subst k. rewrite EN. reflexivity. }
    destruct (o_num o =? 0); exact Y.
Qed.
Lemma register_rest : forall s o, s_conns (register s o) = s_conns s /\ s_apps (register s o) = s_apps s /\ s_next (register s o) = s_next s.
Proof. intros s o. unfold register. destruct (o_name o), (o_num o =? 0); auto. Qed.
Lemma inv_register : forall G R w s a o, inv G R w s -> isapp s a -> ~ G a -> o_kind o = KApi a -> dget Z.eqb (appget s a) (o_id o) = None -> o_id o < s_next s ->
  (o_num o <> 0 -> numget (s_num s) (o_num o) = None) -> (o_name o <> [] -> nameget (s_name s) (o_name o) = None) ->
  inv G R w (setapp (register s o) a (dset Z.eqb (appget (register s o) a) (o_id o) (EListen o))).
Proof.
  intros G R w s a o V IS NG KO NK LT FN FM. pose proof V as [A B C D E F K L M N O].
  destruct (register_rest s o) as (R1 & R2 & R3).
  assert (AR : forall b, appget (register s o) b = appget s b) by (intros b; unfold appget; rewrite R2; reflexivity).
  assert (IR : forall b, isapp (register s o) b <-> isapp s b) by (intros b; unfold isapp; rewrite R2; reflexivity).
  rewrite AR. set (s2 := setapp (register s o) a (dset Z.eqb (appget s a) (o_id o) (EListen o))).
  assert (SN : s_num s2 = s_num (register s o)) by reflexivity. assert (SM : s_name s2 = s_name (register s o)) by reflexivity.
  assert (SC : s_conns s2 = s_conns s) by (rewrite <- R1; reflexivity). assert (SX : s_next s2 = s_next s) by (rewrite <- R3; reflexivity).
  assert (AG : forall b, appget s2 b = if b =? a then dset Z.eqb (appget s a) (o_id o) (EListen o) else appget s b) by (intros b; unfold s2; rewrite appget_set, AR; reflexivity).
  assert (IA : forall b, isapp s2 b <-> isapp s b).
  { intros b. unfold s2. rewrite isapp_set, IR. split; [intros [-> |X]; auto|auto]. }
  assert (GE : forall b j, dget Z.eqb (appget s2 b) j = if (b =? a) && (j =? o_id o) then Some (EListen o) else dget Z.eqb (appget s b) j).
  { intros b j. rewrite AG. destruct (b =? a) eqn:X; [|reflexivity]. apply Z.eqb_eq in X. subst b. rewrite (dget_dset Z.eqb decides_Z). reflexivity. }
  assert (KEEP : forall b j x, dget Z.eqb (appget s b) j = Some x -> (b =? a) && (j =? o_id o) = false).
  { intros b j x X. destruct ((b =? a) && (j =? o_id o)) eqn:Y; [|reflexivity]. assert (b = a) by lia. assert (Z2 : j = o_id o) by lia. subst b. rewrite Z2 in X. congruence. }
  split.
  - intros k o2 X. rewrite SN, register_num in X. destruct ((k =? o_num o) && negb (k =? 0)) eqn:Y; [injection X as <-; lia|auto].
  - intros k o2 X. rewrite SM, register_name in X. destruct (leqb k (o_name o) && nonempty k) eqn:Y; [|auto]. injection X as <-. apply andb_true_iff in Y. destruct Y as [Y1 Y2]. apply leqb_eq in Y1. apply nonempty_b in Y2. auto.
  - intros o2 b X Y. rewrite SN, SM, register_num, register_name in Y. rewrite IA, GE.
    assert (CASE : o2 = o \/ (numget (s_num s) (o_num o2) = Some o2 \/ nameget (s_name s) (o_name o2) = Some o2)).
    { destruct Y as [Y|Y]; [destruct ((o_num o2 =? o_num o) && negb (o_num o2 =? 0))|destruct (leqb (o_name o2) (o_name o) && nonempty (o_name o2))]; try (left; congruence); auto. }
    destruct CASE as [-> |Z1].
    + assert (b = a) by congruence. subst b. rewrite !Z.eqb_refl. auto.
    + destruct (C o2 b X Z1) as (P & Q & S0). rewrite (KEEP _ _ _ S0). auto.
  - intros b j o2 Q X. rewrite GE in X. rewrite SN, SM, register_num, register_name. destruct ((b =? a) && (j =? o_id o)) eqn:Y.
    + injection X as <-. assert (b = a) by lia. subst b. split; [lia|]. split; [exact KO|]. split.
      * intros Z1. replace ((o_num o =? o_num o) && negb (o_num o =? 0)) with true by lia. reflexivity.
      * intros Z1. rewrite (proj2 (leqb_eq _ _) eq_refl), (proj2 (nonempty_b _) Z1). reflexivity.
    + destruct (D b j o2 Q X) as (D1 & D2 & D3 & D4). split; [exact D1|]. split; [exact D2|]. split.
      * intros Z1. destruct ((o_num o2 =? o_num o) && negb (o_num o2 =? 0)) eqn:Z2; [|auto]. assert (Z3 : o_num o2 = o_num o) by lia. specialize (D3 Z1). rewrite Z3 in D3, Z1. rewrite (FN Z1) in D3. discriminate.
      * intros Z1. destruct (leqb (o_name o2) (o_name o) && nonempty (o_name o2)) eqn:Z2; [|auto]. apply andb_true_iff in Z2. destruct Z2 as [Z2 _]. apply leqb_eq in Z2. specialize (D4 Z1). rewrite Z2 in D4, Z1. rewrite (FM Z1) in D4. discriminate.
  - intros b j m Q X. rewrite GE in X. rewrite SC. destruct ((b =? a) && (j =? o_id o)); [discriminate|]. auto.
  - intros m c X. rewrite SC in X. specialize (F m c X). destruct (c_client c) as [b|]; [|exact F]. destruct F as (P & Q & S0). rewrite IA, GE, (KEEP _ _ _ S0). auto.
  - intros b. rewrite AG. destruct (b =? a); [|auto]. apply (NoDup_dset Z.eqb decides_Z). auto.
  - intros b j x X. rewrite GE in X. rewrite SX. destruct ((b =? a) && (j =? o_id o)) eqn:Y; [lia|]. eapply L; eauto.
  - intros b X. rewrite SX. apply IA in X. auto.
  - intros b X. apply IA. auto.
  - intros m. rewrite SC. auto.
Qed.

(** The exception handler of application [a]: exactly its registrations and
    connections go. *)
Definition exact (a : Z) (s s' : sess) : Prop :=
  (forall k, numget (s_num s') k = without a (numget (s_num s) k)) /\
  (forall k, nameget (s_name s') k = without a (nameget (s_name s) k)) /\
  (forall n, dget Z.eqb (s_conns s') n = cwithout a (dget Z.eqb (s_conns s) n)) /\
  (forall b, appget s' b = appget s b) /\ (forall b, isapp s' b <-> isapp s b) /\ s_next s' = s_next s.
Lemma cleanup_ok : forall G R w s a, inv G R w s -> ~ G a ->
  exists s' o, cleanup s a = (s', OCleanup a :: o, None) /\ exact a s s' /\
    (forall n, In (OAbort n) o <-> exists k, dget Z.eqb (s_conns s) n = Some {| c_handle := k; c_client := Some a |}) /\
    (forall x, In x o -> exists n, x = OAbort n).
Proof.
  intros G R w s a V NG. pose proof V as [A B C D E F K L M N O].
  assert (T : tabled s (appget s a)).
  { intros k x IX. apply (in_dget Z.eqb decides_Z) in IX; [|apply K]. destruct x as [n|o].
    - pose proof (E a k n NG IX) as X. eexists. split; [exact X|reflexivity].
    - destruct (D a k o NG IX) as (D1 & _ & D3 & D4). auto. }
  destruct (cleanup_loop_ok (appget s a) s (K a) T) as (s' & o & E1 & EA & EX & HN & HM & HC & HO).
  exists s', o. unfold cleanup. rewrite E1. split; [reflexivity|].
  assert (HCE : forall n, hits_conn (appget s a) n <-> exists k, dget Z.eqb (s_conns s) n = Some {| c_handle := k; c_client := Some a |}).
  { intros n. split.
    - intros (k & IX). apply (in_dget Z.eqb decides_Z) in IX; [|apply K]. exists k. apply (E a k n NG IX).
    - intros (k & X). specialize (F n _ X). cbn [c_client c_handle] in F. destruct F as (_ & _ & F). exists k. apply (dget_in Z.eqb decides_Z). exact F. }
  split; [|split].
  - split; [|split; [|split; [|split; [|split]]]].
    + intros k. destruct (HN k) as [P Q]. destruct (numget (s_num s) k) as [ob|] eqn:Z0; cbn [without].
      * destruct (A k ob Z0) as [A1 A2]. destruct (ownedb a ob) eqn:Z1.
        -- apply ownedb_spec in Z1. apply P. split; [exact A2|]. destruct (C ob a Z1) as (_ & _ & Z2); [left; rewrite A1; exact Z0|]. exists (o_id ob), ob. split; [|exact A1]. apply (dget_in Z.eqb decides_Z). exact Z2.
        -- apply Q. intros (_ & h2 & o2 & IX & Y). apply (in_dget Z.eqb decides_Z) in IX; [|apply K]. destruct (D a h2 o2 NG IX) as (_ & D2 & D3 & _). rewrite Y in D3. specialize (D3 A2). assert (o2 = ob) by congruence. subst o2. apply ownedb_spec in D2. congruence.
      * destruct (numget (s_num s') k) as [z|] eqn:Z1; [|reflexivity]. exfalso. assert (NH : ~ hits_num (appget s a) k) by (intros W; pose proof (P W); congruence). pose proof (Q NH). congruence.
    + intros k. destruct (HM k) as [P Q]. destruct (nameget (s_name s) k) as [ob|] eqn:Z0; cbn [without].
      * destruct (B k ob Z0) as [A1 A2]. destruct (ownedb a ob) eqn:Z1.
        -- apply ownedb_spec in Z1. apply P. split; [exact A2|]. destruct (C ob a Z1) as (_ & _ & Z2); [right; rewrite A1; exact Z0|]. exists (o_id ob), ob. split; [|exact A1]. apply (dget_in Z.eqb decides_Z). exact Z2.
        -- apply Q. intros (_ & h2 & o2 & IX & Y). apply (in_dget Z.eqb decides_Z) in IX; [|apply K]. destruct (D a h2 o2 NG IX) as (_ & D2 & _ & D3). rewrite Y in D3. specialize (D3 A2). assert (o2 = ob) by congruence. subst o2. apply ownedb_spec in D2. congruence.
      * destruct (nameget (s_name s') k) as [z|] eqn:Z1; [|reflexivity]. exfalso. assert (NH : ~ hits_name (appget s a) k) by (intros W; pose proof (P W); congruence). pose proof (Q NH). congruence.
    + intros n. destruct (HC n) as [P Q]. destruct (dget Z.eqb (s_conns s) n) as [[k [b|]]|] eqn:Z0; cbn [cwithout c_client].
      * destruct (b =? a) eqn:Z1.
        -- apply Z.eqb_eq in Z1. subst b. apply P. apply HCE. eauto.
        -- apply Q. intros W. apply HCE in W. destruct W as (k2 & W). assert (Some b = Some a) by congruence. assert (b = a) by congruence. lia.
      * apply Q. intros W. apply HCE in W. destruct W as (k2 & W). congruence.
      * apply Q. intros W. apply HCE in W. destruct W as (k2 & W). congruence.
    + intros b. unfold appget. rewrite EA. reflexivity.
    + intros b. unfold isapp. rewrite EA. reflexivity.
    + exact EX.
  - intros n. rewrite <- HCE. split; [|intros W; apply (proj1 (HC n) W)]. intros X. destruct (HO _ X) as (m & Y & Z0). injection Y as <-. exact Z0.
  - intros x X. destruct (HO x X) as (n & -> & _). eauto.
Qed.
Lemma without_some : forall a o x, without a o = Some x -> o = Some x /\ ~ owned a x.
Proof. intros a [y|] x H; cbn [without] in H; [|discriminate]. destruct (ownedb a y) eqn:E; [discriminate|]. injection H as <-. split; [reflexivity|]. intros W. apply ownedb_spec in W. congruence. Qed.
Lemma inv_cleanup : forall G (G' : Z -> Prop) R w w' s s' a, inv G R w s -> ~ G a -> isapp s a -> exact a s s' -> (forall b, G' b <-> G b \/ b = a) ->
  (forall n, w' n = match w n with Some (b, k) => if b =? a then None else Some (b, k) | None => None end) -> inv G' R w' s'.
Proof.
  intros G G' R w w' s s' a V NG IS (X1 & X2 & X3 & X4 & X5 & X6) EG EW. pose proof V as [A B C D E F K L M N O]. split.
  - intros k o X. rewrite X1 in X. apply without_some in X. destruct X. auto.
  - intros k o X. rewrite X2 in X. apply without_some in X. destruct X. auto.
  - intros o b X Y. rewrite X1, X2 in Y. rewrite X4, X5, EG.
    assert (Z0 : (numget (s_num s) (o_num o) = Some o \/ nameget (s_name s) (o_name o) = Some o) /\ ~ owned a o).
    { destruct Y as [Y|Y]; apply without_some in Y; destruct Y; auto. }
    destruct Z0 as [Z0 Z1]. destruct (C o b X Z0) as (P & Q & S0). split; [exact P|]. split; [|exact S0]. intros [W| ->]; [exact (Q W)|]. apply Z1. exact X.
  - intros b k o Q X. rewrite EG in Q. rewrite X4 in X. destruct (D b k o) as (D1 & D2 & D3 & D4); [tauto|exact X|]. split; [exact D1|]. split; [exact D2|].
    assert (NB : b <> a) by tauto. assert (NO : ownedb a o = false) by (destruct (ownedb a o) eqn:Z0; [apply ownedb_spec in Z0; unfold owned in Z0; congruence|reflexivity]).
    split; intros Z0; [rewrite X1, (D3 Z0)|rewrite X2, (D4 Z0)]; cbn [without]; rewrite NO; reflexivity.
  - intros b k n Q X. rewrite EG in Q. rewrite X4 in X. rewrite X3, (E b k n) by tauto. cbn [cwithout c_client]. replace (b =? a) with false by lia. reflexivity.
  - intros n c X. rewrite X3 in X. destruct (dget Z.eqb (s_conns s) n) as [c2|] eqn:Z0; cbn [cwithout] in X; [|discriminate]. pose proof (F n c2 Z0) as F2.
    destruct (c_client c2) as [b|] eqn:Z1.
    + destruct (b =? a) eqn:Z2; [discriminate|]. injection X as <-. rewrite Z1. rewrite X5, X4, EG. destruct F2 as (P & Q & S0). split; [exact P|]. split; [|exact S0]. intros [W|W]; [exact (Q W)|lia].
    + injection X as <-. rewrite Z1. exact F2.
  - intros b. rewrite X4. auto.
  - intros b k x X. rewrite X4 in X. rewrite X6. eapply L; eauto.
  - intros b X. rewrite X6. apply X5 in X. auto.
  - intros b X. apply X5. apply EG in X. destruct X as [X| ->]; auto.
  - intros n. rewrite EW, X3, O. destruct (dget Z.eqb (s_conns s) n) as [[k [b|]]|]; cbn [cwithout c_client]; try reflexivity. destruct (b =? a); reflexivity.
Qed.

(** Both states have the same registrations and connections, but for those of
    [a]. *)
Definition near (a : Z) (s s2 : sess) : Prop :=
  (forall k, without a (numget (s_num s2) k) = without a (numget (s_num s) k)) /\
  (forall k, without a (nameget (s_name s2) k) = without a (nameget (s_name s) k)) /\
  (forall n, cwithout a (dget Z.eqb (s_conns s2) n) = cwithout a (dget Z.eqb (s_conns s) n)).
Definition filt (a : Z) (s s' : sess) : Prop :=
  (forall k, numget (s_num s') k = without a (numget (s_num s) k)) /\
  (forall k, nameget (s_name s') k = without a (nameget (s_name s) k)) /\
  (forall n, dget Z.eqb (s_conns s') n = cwithout a (dget Z.eqb (s_conns s) n)).
Lemma near_exact : forall a s s2 s', near a s s2 -> exact a s2 s' -> filt a s s'.
Proof. intros a s s2 s' (A & B & C) (X & Y & Z0 & _). split; [|split]; intros k; [rewrite X; auto|rewrite Y; auto|rewrite Z0; auto]. Qed.
Lemma near_refl : forall a s, near a s s.
Proof. intros a s. split; [|split]; reflexivity. Qed.
Lemma near_conn : forall a s n k, dget Z.eqb (s_conns s) n = None ->
  (forall m, cwithout a (dget Z.eqb (dset Z.eqb (s_conns s) n {| c_handle := k; c_client := Some a |}) m) = cwithout a (dget Z.eqb (s_conns s) m)).
Proof. intros a s n k H m. rewrite (dget_dset Z.eqb decides_Z). destruct (m =? n) eqn:E; [|reflexivity]. apply Z.eqb_eq in E. subst m. rewrite H. cbn [cwithout c_client]. rewrite Z.eqb_refl. reflexivity. Qed.
Lemma near_delconn : forall a s n k, dget Z.eqb (s_conns s) n = Some {| c_handle := k; c_client := Some a |} ->
  (forall m, cwithout a (dget Z.eqb (ddel Z.eqb (s_conns s) n) m) = cwithout a (dget Z.eqb (s_conns s) m)).
Proof. intros a s n k H m. rewrite (dget_ddel Z.eqb decides_Z). destruct (m =? n) eqn:E; [|reflexivity]. apply Z.eqb_eq in E. subst m. rewrite H. cbn [cwithout c_client]. rewrite Z.eqb_refl. reflexivity. Qed.

(** ** Every step that fits keeps the invariant *)
Lemma owner_snoc : forall h p n, owner (h ++ [p]) n = owner1 (owner h) p n.
Proof. intros. unfold owner. rewrite fold_left_app. reflexivity. Qed.
Definition aborts (o : list sout) : Prop := forall y, In y o -> exists n, y = OAbort n.
Lemma told_aborts : forall o r, aborts o -> fold_left (fun r y => match y with OItem a k (AConnect _ _ _ _) => Some (a, k) | OReply a (PConnecting k) => Some (a, k) | _ => r end) o r = r.
Proof. induction o as [|y o IH]; intros r A; [reflexivity|]. cbn [fold_left]. destruct (A y (or_introl eq_refl)) as (n & ->). apply IH. intros z Z0. apply A. right. exact Z0. Qed.
Lemma told_app : forall o0 a o2, aborts o2 -> told (o0 ++ OCleanup a :: o2) = told o0.
Proof. intros. unfold told. rewrite fold_left_app. cbn [fold_left]. apply told_aborts. exact H. Qed.
Lemma abort_in : forall o n, aborts o -> existsb (fun y => match y with OClose m | OAbort m => m =? n | _ => false end) o = true <-> In (OAbort n) o.
Proof.
  intros o n A. rewrite existsb_exists. split.
  - intros (y & Y1 & Y2). destruct (A y Y1) as (m & ->). apply Z.eqb_eq in Y2. subst m. exact Y1.
  - intros H. exists (OAbort n). split; [exact H|]. apply Z.eqb_refl.
Qed.
Lemma owner1_cleanup : forall w x o0 a o2 n, aborts o2 ->
  (In (OAbort n) o2 -> owner1 w (x, o0 ++ OCleanup a :: o2) n = None) /\ (~ In (OAbort n) o2 -> owner1 w (x, o0 ++ OCleanup a :: o2) n = owner1 w (x, o0) n).
Proof.
  intros w x o0 a o2 n A. unfold owner1. cbn [fst snd]. unfold shut. rewrite existsb_app. cbn [existsb orb].
  assert (OP : opened x (o0 ++ OCleanup a :: o2) n = opened x o0 n) by (destruct x as [|m p st b|m i b|ap [| |m r| | | |] b|ap]; cbn [opened]; rewrite ?told_app by exact A; reflexivity).
  split; intros H.
  - rewrite (proj2 (abort_in o2 n A) H), !orb_true_r. reflexivity.
  - destruct (existsb _ o2) eqn:E; [apply (abort_in o2 n A) in E; contradiction|]. rewrite orb_false_r, OP. reflexivity.
Qed.
Definition ginv (h : hist) (s : sess) : Prop := inv (gone h) (refused h) (owner h) s.
Definition quiet (o : list sout) : Prop := forall a, ~ In (OCleanup a) o.
Lemma ginv_weak : forall h x o s w, inv (gone h) (refused h) w s -> quiet o -> (forall n, owner1 (owner h) (x, o) n = w n) -> ginv (h ++ [(x, o)]) s.
Proof.
  intros h x o s w V Q E. eapply inv_weak; [exact V| | |].
  - intros a. rewrite gone_app. split; [intros [X|X]; [exact X|exfalso; exact (Q a X)]|auto].
  - intros n X. apply refused_app. auto.
  - intros n. rewrite owner_snoc. apply E.
Qed.
Lemma cleanup_step : forall h x o0 s a w, inv (gone h) (refused h) w s -> ~ gone h a -> isapp s a -> quiet o0 ->
  (forall n, (forall k, w n <> Some (a, k)) -> owner1 (owner h) (x, o0) n = w n) ->
  exists s' o2, cleanup s a = (s', OCleanup a :: o2, None) /\ ginv (h ++ [(x, o0 ++ OCleanup a :: o2)]) s' /\ exact a s s' /\ aborts o2 /\
    (forall n, In (OAbort n) o2 <-> exists k, w n = Some (a, k)).
Proof.
  intros h x o0 s a w V NG IS Q E. destruct (cleanup_ok _ _ _ s a V NG) as (s' & o2 & C1 & C2 & C3 & C4).
  assert (AB : forall n, In (OAbort n) o2 <-> exists k, w n = Some (a, k)).
  { intros n. rewrite C3. pose proof (i_ow _ _ _ _ V n) as W. rewrite W. split.
    - intros (k & ->). eauto.
    - destruct (dget Z.eqb (s_conns s) n) as [[k [b|]]|]; intros (k2 & X); try discriminate. injection X as -> ->. eauto. }
  exists s', o2. split; [exact C1|]. split; [|auto].
  eapply inv_weak with (w := fun n => match w n with Some (b, k) => if b =? a then None else Some (b, k) | None => None end).
  - eapply inv_cleanup with (G' := fun b => gone h b \/ b = a); [exact V|exact NG|exact IS|exact C2|tauto|reflexivity].
  - intros b. rewrite gone_app. rewrite in_app_iff. cbn [In]. split.
    + intros [X|[X|[X|X]]]; [auto|exfalso; exact (Q b X)|injection X as ->; auto|]. destruct (C4 _ X); discriminate.
    + intros [X| ->]; auto.
  - intros n X. apply refused_app. auto.
  - intros n. rewrite owner_snoc. destruct (owner1_cleanup (owner h) x o0 a o2 n C4) as [P1 P2].
    destruct (w n) as [[b k]|] eqn:W.
    + destruct (b =? a) eqn:Z0.
      * apply Z.eqb_eq in Z0. subst b. apply P1. apply AB. eauto.
      * rewrite P2; [rewrite E by (intros k2; rewrite W; intros X; injection X as X _; lia); exact W|]. intros X. apply AB in X. destruct X as (k2 & X). rewrite W in X. injection X as X _. lia.
    + rewrite P2; [rewrite E by (intros k2; rewrite W; discriminate); exact W|]. intros X. apply AB in X. destruct X as (k2 & X). congruence.
Qed.

Lemma owner_none : forall h s n, ginv h s -> dget Z.eqb (s_conns s) n = None -> owner h n = None.
Proof. intros h s n V X. rewrite (i_ow _ _ _ _ V n), X. reflexivity. Qed.
Lemma entry_isapp : forall s a k x, dget Z.eqb (appget s a) k = Some x -> isapp s a.
Proof. intros s a k x H. unfold isapp. unfold appget in H. destruct (dget Z.eqb (s_apps s) a) as [d|]; [eauto|discriminate]. Qed.

(** An application is told about a new connection. *)
Lemma announce : forall h s a k n i sent x o1, inv (gone h) (refused h) (owner h) s -> isapp s a -> ~ gone h a -> dget Z.eqb (s_conns s) n = None ->
  dget Z.eqb (appget s a) k = None -> k < s_next s -> (exists p st, x = SIn n p st sent) -> (o1 = [] \/ exists ob u g, o1 = [OStart a ob u g]) -> (exists u b c d, i = AConnect u b c d) ->
  exists s' o2, app_dispatch (with_conns s (dset Z.eqb (s_conns s) n {| c_handle := k; c_client := Some a |})) a k n false i sent = (s', o2, None) /\
    ginv (h ++ [(x, o1 ++ o2)]) s' /\
    (sent = true -> o2 = [OItem a k i] /\ s' = setapp (with_conns s (dset Z.eqb (s_conns s) n {| c_handle := k; c_client := Some a |})) a (dset Z.eqb (appget s a) k (EConn n))) /\
    (sent = false -> exists o3, o2 = OCleanup a :: o3 /\ aborts o3 /\ filt a s s').
Proof.
  intros h s a k n i sent x o1 V IS NG NC NK LT (p & st & ->) O1 (u & b & c & d & ->).
  set (s1 := with_conns s (dset Z.eqb (s_conns s) n {| c_handle := k; c_client := Some a |})).
  assert (AE : appget s1 a = appget s a) by reflexivity.
  unfold app_dispatch. rewrite AE, NK.
  set (s2 := setapp s1 a (dset Z.eqb (appget s a) k (EConn n))).
  assert (V2 : inv (gone h) (refused h) (fun m => if m =? n then Some (a, k) else owner h m) s2) by (apply inv_conn with (w := owner h); auto).
  assert (Q1 : quiet o1) by (intros y Y; destruct O1 as [-> |(ob & uu & g & ->)]; [destruct Y|destruct Y as [Y|[]]; discriminate]).
  assert (T1 : told o1 = None) by (destruct O1 as [-> |(ob & uu & g & ->)]; reflexivity).
  assert (X1 : forall f, (forall a ob u g, f (OStart a ob u g) = false) -> existsb f o1 = false) by (intros f F; destruct O1 as [-> |(ob & uu & g & ->)]; cbn [existsb]; rewrite ?F; reflexivity).
  destruct sent.
  - exists s2, [OItem a k (AConnect u b c d)]. split; [reflexivity|]. split.
    + eapply ginv_weak; [exact V2| |].
      * intros y Y. apply in_app_or in Y. destruct Y as [Y|[Y|[]]]; [exact (Q1 y Y)|discriminate].
      * intros m. unfold owner1, shut. cbn [fst snd opened]. rewrite existsb_app, X1 by reflexivity. cbn [existsb orb]. rewrite (Z.eqb_sym n m). destruct (m =? n); [|reflexivity].
        unfold told. rewrite fold_left_app. reflexivity.
    + split; [auto|discriminate].
  - destruct (cleanup_step h (SIn n p st false) o1 s2 a _ V2 NG) as (s' & o2 & C1 & C2 & C3 & C4 & C5); [|exact Q1| |].
    + apply isapp_set. auto.
    + intros m W. cbn beta in W |- *. unfold owner1, shut. cbn [fst snd opened]. rewrite X1 by reflexivity. cbn [orb]. rewrite (Z.eqb_sym n m). destruct (m =? n); [exfalso; apply (W k); reflexivity|reflexivity].
    + exists s', (OCleanup a :: o2). split; [exact C1|]. split; [exact C2|]. split; [discriminate|]. intros _. exists o2. split; [reflexivity|]. split; [exact C4|].
      eapply near_exact; [|exact C3]. split; [reflexivity|]. split; [reflexivity|]. intros m. exact (near_conn a s n k NC m).
Qed.

Lemma step_in : forall e h s n p st b, ginv h s -> bytes_ok p -> exists s' o, sess_in e s n p st b = Ok (s', o) /\ ginv (h ++ [(SIn n p st b, o)]) s' /\ (forall a, In (OCleanup a) o -> filt a s s').
Proof.
  intros e h s n p st b V BP. unfold sess_in. pose proof V as [A B C D E F K L M N O].
  assert (NOTHING : forall o, quiet o -> told o = None -> existsb (fun y => match y with OClose m | OAbort m => true | _ => false end) o = false -> forall m, owner1 (owner h) (SIn n p st b, o) m = owner h m).
  { intros o Q T X m. unfold owner1, shut. cbn [fst snd opened]. rewrite T. cbn [orb]. match goal with |- context [existsb ?f o] => destruct (existsb f o) eqn:Y end.
    - exfalso. apply existsb_exists in Y. destruct Y as (y & Y1 & Y2). enough (Z0 : existsb (fun y => match y with OClose m | OAbort m => true | _ => false end) o = true) by congruence. apply existsb_exists. exists y. split; [exact Y1|]. destruct y; auto.
    - destruct (n =? m); reflexivity. }
  assert (REJ : forall s1 o, inv (gone h) (refused h) (owner h) s1 -> (exists r, In (OReject n r) o) -> quiet o -> told o = None -> existsb (fun y => match y with OClose m | OAbort m => true | _ => false end) o = false -> ginv (h ++ [(SIn n p st b, o)]) s1).
  { intros. eapply ginv_weak; eauto. }
  destruct (dget Z.eqb (s_conns s) n) as [c|] eqn:NC.
  { exists s, []. split; [reflexivity|]. split; [|intros y []]. eapply ginv_weak; [exact V|intros y []|]. apply NOTHING; try reflexivity. intros y []. }
  pose proof (sci_decode_safe p BP) as SAFE.
  destruct (sci_dec p) as [m|er] eqn:DE.
  2:{ assert (er = EDecode) by (destruct SAFE as [(x & X & _)|X]; congruence). subst er. eexists _, _. split; [reflexivity|]. split; [|intros y [Y|[]]; discriminate]. apply REJ; auto; [eexists; left; reflexivity|]. intros y [Y|[]]; discriminate. }
  destruct (lookup s (sc_dst m)) as [ob|] eqn:LK.
  2:{ eexists _, _. split; [reflexivity|]. split; [|intros y [Y|[]]; discriminate]. apply REJ; auto; [eexists; left; reflexivity|]. intros y [Y|[]]; discriminate. }
  destruct (authorize e ob m) as [[ok uid] gid]. destruct ok; cbn [negb].
  2:{ eexists _, _. split; [reflexivity|]. split; [|intros y [Y|[Y|[]]]; discriminate]. apply REJ; auto; [eexists; right; left; reflexivity|]. intros y [Y|[Y|[]]]; discriminate. }
  set (i := AConnect _ _ _ _). assert (IC : exists u b c d, i = AConnect u b c d) by (eexists _, _, _, _; reflexivity).
  assert (VB : inv (gone h) (refused h) (owner h) (bump s)) by (apply inv_bump; exact V).
  assert (NEW : exists s' o, (let '(s0, o2, x) := app_dispatch (with_conns (bump (setapp (bump s) (s_next (bump s)) [])) (dset Z.eqb (s_conns (bump (setapp (bump s) (s_next (bump s)) []))) n {| c_handle := s_next s; c_client := Some (s_next (bump s)) |})) (s_next (bump s)) (s_next s) n false i b in
            match x with None => Ok (s0, [OStart (s_next (bump s)) ob uid gid] ++ o2) | Some _ => Ok (s0, [OStart (s_next (bump s)) ob uid gid] ++ o2 ++ [OReject n OBJ_FAIL]) end) = Ok (s', o) /\ ginv (h ++ [(SIn n p st b, o)]) s' /\ (forall a, In (OCleanup a) o -> filt a s s')).
  { assert (VO : inv (gone h) (refused h) (owner h) (bump (setapp (bump s) (s_next (bump s)) []))) by (apply inv_open; exact VB).
    assert (NA : ~ isapp (bump s) (s_next (bump s))) by (intros X; apply (i_app _ _ _ _ VB) in X; lia).
    destruct (announce h (bump (setapp (bump s) (s_next (bump s)) [])) (s_next (bump s)) (s_next s) n i b (SIn n p st b) [OStart (s_next (bump s)) ob uid gid]) as (s' & o2 & E1 & E2 & E3 & E4); auto.
    - apply (isapp_set (bump s) (s_next (bump s)) []). auto.
    - intros X. apply NA. apply (i_gone _ _ _ _ VB). exact X.
    - change (dget Z.eqb (appget (setapp (bump s) (s_next (bump s)) []) (s_next (bump s))) (s_next s) = None). rewrite appget_set, Z.eqb_refl. reflexivity.
    - change (s_next s < s_next s + 1 + 1). lia.
    - eauto.
    - right. eauto.
    - rewrite E1. eexists _, _. split; [reflexivity|]. split; [exact E2|]. intros z [Z0|Z0]; [discriminate|]. destruct b.
      + destruct (E3 eq_refl) as [-> _]. destruct Z0 as [Z0|[]]; discriminate.
      + destruct (E4 eq_refl) as (o3 & -> & AB & FI). destruct Z0 as [Z0|Z0]; [injection Z0 as <-; exact FI|destruct (AB _ Z0); discriminate]. }
  assert (ORPH : forall r, exists s' o, Ok (with_conns (bump s) (dset Z.eqb (s_conns (bump s)) n {| c_handle := s_next s; c_client := None |}), [OReject n r]) = Ok (s', o) /\ ginv (h ++ [(SIn n p st b, o)]) s' /\ (forall a, In (OCleanup a) o -> filt a s s')).
  { intros r. eexists _, _. split; [reflexivity|]. split; [|intros z [Z0|[]]; discriminate].
    assert (V1 : ginv (h ++ [(SIn n p st b, [OReject n r])]) (bump s)) by (apply REJ; auto; [eexists; left; reflexivity|intros y [Y|[]]; discriminate]).
    apply inv_orphan; auto. apply refused_app. right. eexists. left. reflexivity. }
  destruct (o_kind ob) as [a| |] eqn:KO.
  - assert (REG : numget (s_num s) (o_num ob) = Some ob \/ nameget (s_name s) (o_name ob) = Some ob).
    { destruct (sc_dst m) as [nn|nm|gg uu nm]; cbn [lookup] in LK; [left; destruct (A _ _ LK) as [X _]; rewrite X; exact LK|right; destruct (B _ _ LK) as [X _]; rewrite X; exact LK|right; destruct (B _ _ LK) as [X _]; rewrite X; exact LK]. }
    destruct (C ob a KO REG) as (IS & NG & _).
    destruct (announce h (bump s) a (s_next s) n i b (SIn n p st b) []) as (s' & o2 & E1 & E2 & E3 & E4); auto.
    + destruct (dget Z.eqb (appget (bump s) a) (s_next s)) as [x|] eqn:X; [|reflexivity]. apply L in X. lia.
    + change (s_next s < s_next s + 1). lia.
    + eauto.
    + cbn [app] in E2. rewrite E1. eexists _, _. split; [reflexivity|]. split; [exact E2|]. cbn [app]. intros z Z0. destruct b.
      * destruct (E3 eq_refl) as [-> _]. destruct Z0 as [Z0|[]]; discriminate.
      * destruct (E4 eq_refl) as (o3 & -> & AB & FI). destruct Z0 as [Z0|Z0]; [injection Z0 as <-; exact FI|destruct (AB _ Z0); discriminate].
  - destruct st; [exact NEW|apply ORPH|apply ORPH].
  - destruct st; [exact NEW|apply ORPH|apply ORPH].
Qed.

(** What the item's content is for the application. *)
Definition content (i : nitem) : option aitem :=
  match i with
  | NIData b => Some (AData b) | NIInt b => Some (AInterrupt b) | NIConf b => Some (AAccept b) | NIRun => Some ARun
  | NIDisc rej r b => Some (if rej then AReject r b else ADisconnect r b) | NIOther => None
  end.
Lemma content_spec : forall i, to_aitem i = content i.
Proof. intros [b|b|b|[|] r b| |]; reflexivity. Qed.
Lemma step_item : forall h s n i b, ginv h s -> ~ refused h n ->
  exists s' o, sess_item s n i b = Ok (s', o) /\ ginv (h ++ [(SItem n i b, o)]) s' /\
    match owner h n, content i with
    | Some (a, k), Some c => ~ gone h a /\ if b then o = [OItem a k c] else exists o2, o = OCleanup a :: o2 /\ aborts o2 /\ filt a s s'
    | _, _ => o = []
    end.
Proof.
  intros h s n i b V NR. unfold sess_item. pose proof V as [A B C D E F K L M N O]. rewrite content_spec. pose proof (O n) as OW.
  destruct (dget Z.eqb (s_conns s) n) as [[k cl]|] eqn:NC.
  2:{ exists s, []. split; [reflexivity|]. rewrite OW. split; [|reflexivity]. eapply ginv_weak; [exact V|intros y []|]. intros m. unfold owner1, shut. cbn [fst snd opened existsb]. rewrite orb_false_r.
      destruct i as [x|x|x|r x y| |]; try reflexivity. destruct (n =? m) eqn:Z0; [|reflexivity]. apply Z.eqb_eq in Z0. subst m. symmetry. exact OW. }
  destruct (content i) as [ai|] eqn:CT.
  2:{ exists s, []. split; [reflexivity|]. split; [|destruct (owner h n) as [[a1 k1]|]; reflexivity]. eapply ginv_weak; [exact V|intros y []|]. intros m. destruct i as [x|x|x|r x y| |]; try discriminate. reflexivity. }
  pose proof (F n _ NC) as FC. cbn [c_client c_handle] in FC |- *. destruct cl as [a|]; [|contradiction]. destruct FC as (IS & NG & HE). rewrite OW.
  unfold app_dispatch. destruct (closing i) eqn:CL.
  - unfold del. set (s1 := with_conns s (ddel Z.eqb (s_conns s) n)). assert (AE : appget s1 a = appget s a) by reflexivity. rewrite AE, HE. cbn [bind].
    set (s2 := setapp s1 a (ddel Z.eqb (appget s a) k)).
    assert (V2 : inv (gone h) (refused h) (fun m => if m =? n then None else owner h m) s2) by (apply inv_delconn with (w := owner h); auto).
    assert (OO : forall o m, existsb (fun y => match y with OClose m | OAbort m => true | _ => false end) o = false -> owner1 (owner h) (SItem n i b, o) m = if m =? n then None else owner h m).
    { intros o m X. unfold owner1, shut. cbn [fst snd opened]. destruct i as [x|x|x|r x y| |]; try discriminate. rewrite (Z.eqb_sym n m). destruct (m =? n); [reflexivity|]. cbn [orb].
      match goal with |- context [existsb ?f o] => destruct (existsb f o) eqn:Y end; [|reflexivity]. exfalso. apply existsb_exists in Y. destruct Y as (z & Y1 & Y2).
      enough (Z0 : existsb (fun y => match y with OClose m | OAbort m => true | _ => false end) o = true) by congruence. apply existsb_exists. exists z. split; [exact Y1|]. destruct z; auto. }
    destruct b.
    + exists s2, [OItem a k ai]. split; [reflexivity|]. split; [|auto]. eapply ginv_weak; [exact V2|intros y [Y|[]]; discriminate|]. intros m. apply OO. reflexivity.
    + destruct (cleanup_step h (SItem n i false) [] s2 a _ V2 NG) as (s' & o2 & C1 & C2 & C3 & C4 & C5); [apply isapp_set; auto|intros y []|intros m _; apply OO; reflexivity|].
      rewrite C1. exists s', (OCleanup a :: o2). split; [reflexivity|]. split; [exact C2|]. split; [exact NG|]. exists o2. split; [reflexivity|]. split; [exact C4|].
      eapply near_exact; [|exact C3]. split; [reflexivity|]. split; [reflexivity|]. intros m. exact (near_delconn a s n k NC m).
  - rewrite HE, Z.eqb_refl.
    assert (OO : forall o m, existsb (fun y => match y with OClose m | OAbort m => true | _ => false end) o = false -> owner1 (owner h) (SItem n i b, o) m = owner h m).
    { intros o m X. unfold owner1, shut. cbn [fst snd opened]. destruct i as [x|x|x|r x y| |]; try discriminate; cbn [orb];
      (match goal with |- context [existsb ?f o] => destruct (existsb f o) eqn:Y end; [|reflexivity]; exfalso; apply existsb_exists in Y; destruct Y as (z & Y1 & Y2);
      enough (Z0 : existsb (fun y => match y with OClose m | OAbort m => true | _ => false end) o = true) by congruence; apply existsb_exists; exists z; split; [exact Y1|]; destruct z; auto). }
    destruct b.
    + exists s, [OItem a k ai]. split; [reflexivity|]. split; [|auto]. eapply ginv_weak; [exact V|intros y [Y|[]]; discriminate|]. intros m. apply OO. reflexivity.
    + destruct (cleanup_step h (SItem n i false) [] s a _ V NG) as (s' & o2 & C1 & C2 & C3 & C4 & C5); [exact IS|intros y []|intros m _; apply OO; reflexivity|].
      rewrite C1. exists s', (OCleanup a :: o2). split; [reflexivity|]. split; [exact C2|]. split; [exact NG|]. exists o2. split; [reflexivity|]. split; [exact C4|].
      eapply near_exact; [apply near_refl|exact C3].
Qed.

(** A request up to its reply. *)
Definition reply_of (a : Z) (p : option areply) : list sout := match p with Some q => [OReply a q] | None => [] end.
Lemma act_ok : forall e h s a r b, ginv h s -> isapp s a -> ~ gone h a ->
  match r with RBind _ name _ => upper name = name | RConnect n NOk => dget Z.eqb (s_conns s) n = None | _ => True end ->
  exists s1 o0 p w, act e s a r = (s1, o0, p) /\ inv (gone h) (refused h) w s1 /\ isapp s1 a /\ quiet o0 /\
    (forall n, (forall k, w n <> Some (a, k)) -> owner1 (owner h) (SReq a r b, o0) n = w n) /\
    (forall q, p = Some q -> forall n, owner1 (owner h) (SReq a r b, o0 ++ reply_of a q) n = w n) /\
    (forall y, In y o0 -> exists n, (y = ONsp n \/ y = OClose n)) /\
    near a s s1.
Proof.
  intros e h s a r b V IS NG FT. pose proof V as [A B C D E F K L M N O].
  assert (SAME : forall (p : option (option areply)) o0, (o0 = [] \/ exists n, o0 = [ONsp n]) -> (forall q, p = Some (Some q) -> forall k, q <> PConnecting k) -> act e s a r = (s, o0, p) -> (p = None -> o0 = []) ->
    exists s1 o0 p w, act e s a r = (s1, o0, p) /\ inv (gone h) (refused h) w s1 /\ isapp s1 a /\ quiet o0 /\
    (forall n, (forall k, w n <> Some (a, k)) -> owner1 (owner h) (SReq a r b, o0) n = w n) /\
    (forall q, p = Some q -> forall n, owner1 (owner h) (SReq a r b, o0 ++ reply_of a q) n = w n) /\
    (forall y, In y o0 -> exists n, (y = ONsp n \/ y = OClose n)) /\ near a s s1).
  { intros p o0 O0 NP EA PN. exists s, o0, p, (owner h). split; [exact EA|]. split; [exact V|]. split; [exact IS|].
    assert (SH : forall q m, shut (SReq a r b) (o0 ++ reply_of a q) m = false) by (intros q m; destruct O0 as [-> |(n & ->)]; destruct q; reflexivity).
    assert (TO : forall q, p = Some q -> told (o0 ++ reply_of a q) = None) by (intros q Q; destruct O0 as [-> |(n & ->)]; destruct q as [q|]; try reflexivity; specialize (NP q Q); destruct q; try reflexivity; exfalso; eapply NP; reflexivity).
    split; [destruct O0 as [-> |(n & ->)]; intros y Y; [destruct Y|destruct Y as [Y|[]]; discriminate]|]. split; [|split; [|split]].
    - intros m _. unfold owner1. cbn [fst snd]. replace o0 with (o0 ++ reply_of a None) by apply app_nil_r. rewrite SH.
      assert (TT : told (o0 ++ reply_of a None) = None) by (destruct O0 as [-> |(n & ->)]; reflexivity). destruct r as [hh nn|hh nn|cc nn| |x1 x2 x3| |]; cbn [opened]; rewrite ?TT; try reflexivity. destruct (cc =? m); reflexivity.
    - intros q Q m. unfold owner1. cbn [fst snd]. rewrite SH. specialize (TO q Q). destruct r as [hh nn|hh nn|cc nn| |x1 x2 x3| |]; cbn [opened]; rewrite ?TO; try reflexivity. destruct (cc =? m); reflexivity.
    - destruct O0 as [-> |(n & ->)]; intros y Y; [destruct Y|destruct Y as [<- |[]]]. eauto.
    - apply near_refl. }
  assert (NPN : forall (P : Prop) p o0, (p : option (option areply)) = None -> P -> o0 = @nil sout -> p = None -> o0 = []) by auto.
  destruct r as [hh nn|hh nn|cc nn| |num name auth| |]; cbn [act] in SAME |- *.
  - destruct (dget Z.eqb (appget s a) hh) as [[c|l]|]; [destruct nn|..];
      match goal with |- exists s1 o0 p w, (_, ?O, ?P) = _ /\ _ => apply (SAME P O) end; auto; try discriminate; eauto; intros q X k2 Y; congruence.
  - destruct (dget Z.eqb (appget s a) hh) as [[c|l]|] eqn:HE.
    2,3: apply (SAME None []); auto; try discriminate.
    destruct nn.
    2: apply (SAME (Some (Some PError)) []); auto; try discriminate; intros q X k2 Y; congruence.
    2: apply (SAME None []); auto; discriminate.
    unfold del. rewrite (E a hh c NG HE).
    eexists _, [OClose c], (Some None), (fun m => if m =? c then None else owner h m). split; [reflexivity|].
    split; [apply (inv_delconn (gone h) (refused h) (owner h) _ s a hh c); auto|]. split; [apply isapp_set; auto|]. split; [intros y [Y|[]]; discriminate|].
    assert (OO : forall m, owner1 (owner h) (SReq a (RClose hh NOk) b, [OClose c]) m = if m =? c then None else owner h m).
    { intros m. unfold owner1, shut. cbn [fst snd opened existsb]. rewrite (Z.eqb_sym c m). destruct (m =? c); reflexivity. }
    split; [intros m _; apply OO|]. split; [intros q Q m; injection Q as <-; cbn [reply_of app]; apply OO|]. split; [intros y [<- |[]]; eauto|].
    split; [reflexivity|]. split; [reflexivity|]. intros m. exact (near_delconn a s c hh (E a hh c NG HE) m).
  - destruct nn.
    2: apply (SAME (Some (Some PError)) []); auto; try discriminate; intros q X k2 Y; congruence.
    2: apply (SAME None []); auto; discriminate.
    eexists _, [ONsp cc], (Some (Some (PConnecting (s_next s)))), (fun m => if m =? cc then Some (a, s_next s) else owner h m). split; [reflexivity|].
    split; [apply (inv_conn (gone h) (refused h) (owner h) _ (bump s) a (s_next s) cc); auto; [apply inv_bump; exact V| |change (s_next s < s_next s + 1); lia]|].
    { destruct (dget Z.eqb (appget (bump s) a) (s_next s)) as [x|] eqn:X; [|reflexivity]. apply L in X. lia. }
    split; [apply isapp_set; auto|]. split; [intros y [Y|[]]; discriminate|]. split; [|split; [|split]].
    + intros m W. unfold owner1, shut. cbn [fst snd opened existsb]. rewrite (Z.eqb_sym cc m). destruct (m =? cc); [exfalso; eapply W; reflexivity|reflexivity].
    + intros q Q m. injection Q as <-. unfold owner1, shut. cbn [reply_of app fst snd opened existsb]. rewrite (Z.eqb_sym cc m). destruct (m =? cc); reflexivity.
    + intros y [<- |[]]. eauto.
    + split; [reflexivity|]. split; [reflexivity|]. intros m. exact (near_conn a s cc (s_next s) FT m).
  - apply (SAME (Some (Some PUnknownNode)) []); auto; try discriminate; intros q X k2 Y; congruence.
  - destruct (bind_obj e s a num name auth) as [[s1 ob]|er] eqn:BO.
    2:{ apply (SAME (Some (Some PError)) []); auto; try discriminate; intros q X k2 Y; congruence. }
    exists s1, [], (Some (Some (PBind (o_id ob)))), (owner h). split; [reflexivity|].
    unfold bind_obj in BO. destruct (_ || _) eqn:IU in BO; [discriminate|]. apply orb_false_iff in IU. destruct IU as [IU1 IU2].
    destruct (_ && _) in BO; [discriminate|]. destruct (_ && _) in BO; [discriminate|]. destruct (16 <? _) in BO; [discriminate|].
    injection BO as <- <-. rewrite FT.
    split; [|split; [apply isapp_set; auto|]].
    + apply inv_register; cbn [o_kind o_id o_num o_name]; auto; [apply inv_bump; exact V| |change (s_next s < s_next s + 1); lia| |].
      * destruct (dget Z.eqb (appget (bump s) a) (s_next s)) as [x|] eqn:X; [|reflexivity]. apply L in X. lia.
      * intros _. change (numget (s_num s) num = None). destruct (numget (s_num s) num); [discriminate|reflexivity].
      * intros _. change (nameget (s_name s) name = None). destruct (nameget (s_name s) name); [discriminate|reflexivity].
    + split; [intros y []|]. split; [intros m _; reflexivity|]. split; [intros q Q m; injection Q as <-; reflexivity|]. split; [intros y []|].
      set (ob := {| o_id := s_next s; o_kind := KApi a; o_num := num; o_name := name; o_auth := lower auth; o_uid := None; o_gid := 0 |}).
      assert (OB : ownedb a ob = true) by (apply ownedb_spec; reflexivity). destruct (register_rest (bump s) ob) as (R1 & _ & _). split; [|split].
      * intros k. change (without a (numget (s_num (register (bump s) ob)) k) = without a (numget (s_num s) k)). rewrite register_num. destruct ((k =? o_num ob) && negb (k =? 0)) eqn:X; [|reflexivity].
        assert (Z0 : k = num) by (cbn [ob o_num] in X; lia). subst k. destruct (numget (s_num s) num); [discriminate|]. cbn [without]. rewrite OB. reflexivity.
      * intros k. change (without a (nameget (s_name (register (bump s) ob)) k) = without a (nameget (s_name s) k)). rewrite register_name. destruct (leqb k (o_name ob) && nonempty k) eqn:X; [|reflexivity].
        apply andb_true_iff in X. destruct X as [X _]. apply leqb_eq in X. cbn [ob o_name] in X. subst k. destruct (nameget (s_name s) name); [discriminate|]. cbn [without]. rewrite OB. reflexivity.
      * intros n. change (cwithout a (dget Z.eqb (s_conns (register (bump s) ob)) n) = cwithout a (dget Z.eqb (s_conns s) n)). rewrite R1. reflexivity.
  - apply (SAME (Some (Some PError)) []); auto; try discriminate; intros q X k2 Y; congruence.
  - apply (SAME None []); auto; discriminate.
Qed.
Lemma step_req : forall e h s a r b, ginv h s -> fits s h (SReq a r b) -> exists s' o, sess_req e s a r b = Ok (s', o) /\ ginv (h ++ [(SReq a r b, o)]) s' /\ (forall z, In (OCleanup z) o -> filt z s s') /\ (forall z k i, ~ In (OItem z k i) o).
Proof.
  intros e h s a r b V (IS & NG & FT). destruct (act_ok e h s a r b V IS NG FT) as (s1 & o0 & p & w & EA & V1 & IS1 & Q & W1 & W2 & W3 & NR).
  assert (FAIL : exists s' o, (let '(s2, o2, x) := cleanup s1 a in match x with None => Ok (s2, o0 ++ o2) | Some x => Err x end) = Ok (s', o) /\ ginv (h ++ [(SReq a r b, o)]) s' /\ (forall z, In (OCleanup z) o -> filt z s s') /\ (forall z k i, ~ In (OItem z k i) o)).
  { destruct (cleanup_step h (SReq a r b) o0 s1 a w V1 NG IS1 Q W1) as (s' & o2 & C1 & C2 & C3 & C4 & _). rewrite C1. eexists _, _. split; [reflexivity|]. split; [exact C2|]. split.
    - intros z Z0. apply in_app_or in Z0. destruct Z0 as [Z0|[Z0|Z0]]; [exfalso; exact (Q z Z0)|injection Z0 as <-; eapply near_exact; eauto|destruct (C4 _ Z0); discriminate].
    - intros z k i Z0. apply in_app_or in Z0. destruct Z0 as [Z0|[Z0|Z0]]; [destruct (W3 _ Z0) as (n & [Y|Y]); discriminate|discriminate|destruct (C4 _ Z0); discriminate]. }
  assert (NI : forall z k i, ~ In (OItem z k i) o0) by (intros z k i Z0; destruct (W3 _ Z0) as (n & [Y|Y]); discriminate).
  unfold sess_req. rewrite EA. destruct p as [[q|]|].
  - destruct b; [|exact FAIL]. assert (Q2 : quiet (o0 ++ [OReply a q])) by (intros y Y; apply in_app_or in Y; destruct Y as [Y|[Y|[]]]; [exact (Q y Y)|discriminate]).
    eexists _, _. split; [reflexivity|]. split; [eapply ginv_weak; [exact V1|exact Q2|exact (W2 (Some q) eq_refl)]|].
    split; [intros z Z0; exfalso; exact (Q2 z Z0)|]. intros z k i Z0. apply in_app_or in Z0. destruct Z0 as [Z0|[Z0|[]]]; [exact (NI _ _ _ Z0)|discriminate].
  - eexists _, _. split; [reflexivity|]. split; [|split; [intros z Z0; exfalso; exact (Q z Z0)|exact NI]]. eapply ginv_weak; [exact V1|exact Q|]. intros m. specialize (W2 None eq_refl m). cbn [reply_of] in W2. rewrite app_nil_r in W2. exact W2.
  - exact FAIL.
Qed.
Lemma step_exit : forall h s a, ginv h s -> isapp s a -> ~ gone h a ->
  exists s' o, sess_exit s a = Ok (s', OCleanup a :: o) /\ ginv (h ++ [(SExit a, OCleanup a :: o)]) s' /\ exact a s s' /\ aborts o /\ (forall n, In (OAbort n) o <-> exists k, owner h n = Some (a, k)).
Proof.
  intros h s a V IS NG. destruct (cleanup_step h (SExit a) [] s a (owner h) V NG IS) as (s' & o2 & C1 & C2 & C3 & C4 & C5); [intros y []|reflexivity|].
  unfold sess_exit. rewrite C1. exists s', o2. auto.
Qed.
Lemma step_ok : forall e h s x, ginv h s -> fits s h x -> exists s' o, sess_step e s x = Ok (s', o) /\ ginv (h ++ [(x, o)]) s'.
Proof.
  intros e h s [|n p st b|n i b|a r b|a] V FT; cbn [sess_step].
  - eexists _, _. split; [reflexivity|]. eapply ginv_weak; [apply inv_open; exact V|intros y []|reflexivity].
  - destruct (step_in e h s n p st b V FT) as (s' & o & E & V2 & _). eauto.
  - destruct (step_item h s n i b V FT) as (s' & o & E & V2 & _). eauto.
  - destruct (step_req e h s a r b V FT) as (s' & o & E & V2 & _). eauto.
  - destruct FT as [IS NG]. destruct (step_exit h s a V IS NG) as (s' & o & E & V2 & _). eauto.
Qed.

(** ** The initial database *)
Definition plain (c : cobj) : Prop := match c with CObj (KApi _) _ _ _ _ _ => False | _ => True end.
Record inv0 (s : sess) : Prop := {
  z_num : forall k o, numget (s_num s) k = Some o -> o_num o = k /\ k <> 0 /\ forall a, o_kind o <> KApi a;
  z_name : forall k o, nameget (s_name s) k = Some o -> o_name o = k /\ k <> [] /\ forall a, o_kind o <> KApi a;
  z_conns : s_conns s = []; z_apps : s_apps s = []
}.
Lemma unregister_sub : forall s o, (forall k x, numget (s_num (fst (unregister s o))) k = Some x -> numget (s_num s) k = Some x) /\
  (forall k x, nameget (s_name (fst (unregister s o))) k = Some x -> nameget (s_name s) k = Some x) /\ s_conns (fst (unregister s o)) = s_conns s /\ s_apps (fst (unregister s o)) = s_apps s.
Proof.
  intros s o.
  assert (DN : forall k x q, numget (ddel Z.eqb (s_num s) q) k = Some x -> numget (s_num s) k = Some x) by (intros k x q H; unfold numget in H; rewrite (dget_ddel Z.eqb decides_Z) in H; destruct (k =? q); [discriminate|exact H]).
  assert (DM : forall k x q, nameget (ddel leqb (s_name s) q) k = Some x -> nameget (s_name s) k = Some x) by (intros k x q H; unfold nameget in H; rewrite (dget_ddel leqb decides_leqb) in H; destruct (leqb k q); [discriminate|exact H]).
  unfold unregister, del. destruct (o_num o =? 0).
  - destruct (o_name o) as [|c nm]; [cbn [fst]; auto|]. destruct (dget leqb (s_name s) (c :: nm)); cbn [fst with_name s_num s_name s_conns s_apps]; split; eauto.
  - destruct (dget Z.eqb (s_num s) (o_num o)); cbn [bind]; [|cbn [fst]; auto].
    destruct (o_name o) as [|c nm]; [cbn [fst with_num s_num s_name s_conns s_apps]; split; eauto|]. cbn [with_num s_name].
    destruct (dget leqb (s_name s) (c :: nm)); cbn [fst with_num with_name s_num s_name s_conns s_apps]; split; eauto.
Qed.
Lemma init_inv0 : forall l s, Forall plain l -> inv0 s -> inv0 (fold_left sess_cfg1 l s).
Proof.
  induction l as [|c l IH]; intros s P V; [exact V|]. inversion P as [|? ? P1 P2]; subst. cbn [fold_left]. apply IH; [exact P2|]. destruct V as [A B C D].
  destruct c as [num name|k num name auth uid gid]; cbn [sess_cfg1].
  - destruct (if num =? 0 then _ else _) as [o|]; [|split; auto]. destruct (unregister_sub s o) as (U1 & U2 & U3 & U4). split; [eauto|eauto|congruence|congruence].
  - cbn [plain] in P1. set (o := {| o_id := s_next s; o_kind := k; o_num := num; o_name := upper name; o_auth := lower auth; o_uid := uid; o_gid := gid |}).
    assert (NK : forall a, o_kind o <> KApi a) by (intros a; unfold o; cbn [o_kind]; destruct k; [contradiction|discriminate|discriminate]).
    destruct (register_rest (bump s) o) as (R1 & R2 & _). split; [| |rewrite R1; exact C|rewrite R2; exact D].
    + intros q x X. rewrite register_num in X. destruct ((q =? o_num o) && negb (q =? 0)) eqn:Y; [injection X as <-; split; [lia|]; split; [lia|exact NK]|exact (A q x X)].
    + intros q x X. rewrite register_name in X. destruct (leqb q (o_name o) && nonempty q) eqn:Y; [|exact (B q x X)]. injection X as <-. apply andb_true_iff in Y. destruct Y as [Y1 Y2]. apply leqb_eq in Y1. apply nonempty_b in Y2. auto.
Qed.
Lemma init_ginv : forall l, Forall plain l -> ginv [] (sess_init l).
Proof.
  intros l P. destruct (init_inv0 l sess0 P) as [A B C D]; [split; [intros k o X; discriminate|intros k o X; discriminate|reflexivity|reflexivity]|].
  fold (sess_init l) in *.
  assert (AN : forall a, appget (sess_init l) a = []) by (intros a; unfold appget; rewrite D; reflexivity).
  assert (IN : forall a, ~ isapp (sess_init l) a) by (intros a (d & X); rewrite D in X; discriminate).
  split.
  - intros k o X. destruct (A k o X) as (X1 & X2 & _). auto.
  - intros k o X. destruct (B k o X) as (X1 & X2 & _). auto.
  - intros o a X [Y|Y]; [destruct (A _ _ Y) as (_ & _ & Z0)|destruct (B _ _ Y) as (_ & _ & Z0)]; exfalso; exact (Z0 a X).
  - intros a k o _. rewrite AN. discriminate.
  - intros a k n _. rewrite AN. discriminate.
  - intros n c X. rewrite C in X. discriminate.
  - intros a. rewrite AN. constructor.
  - intros a k x. rewrite AN. discriminate.
  - intros a X. exfalso. exact (IN a X).
  - intros a X. destruct X.
  - intros n. rewrite C. reflexivity.
Qed.
Lemma reach_inv : forall e l s h, Forall plain l -> reach e (sess_init l) s h -> ginv h s.
Proof.
  intros e l s h P H. induction H as [|s h x s' o H IH FT E]; [apply init_ginv; exact P|].
  destruct (step_ok e h s x IH FT) as (s2 & o2 & E2 & V). assert (Z0 : (s', o) = (s2, o2)) by congruence. injection Z0 as -> ->. exact V.
Qed.

(** * Theorems *)
(** ** Whatever the remote side sends, and whatever applications do within
    the limits of [fits], the session layer does not fail. *)
Theorem sess_safe : forall e cfg s h x, Forall plain cfg -> reach e (sess_init cfg) s h -> fits s h x -> exists s' o, sess_step e s x = Ok (s', o).
Proof. intros e cfg s h x P H F. destruct (step_ok e h s x (reach_inv e cfg s h P H) F) as (s' & o & E & _). eauto. Qed.
Print Assumptions sess_safe.

(** ** C41: registration is refused if the name or the number is in use, ... *)
Theorem sess_bind_refused : forall e s a num name auth,
  (exists o, dget leqb (s_name s) name = Some o) \/ (exists o, dget Z.eqb (s_num s) num = Some o) ->
  sess_step e s (SReq a (RBind num name auth) true) = Ok (s, [OReply a PError]).
Proof.
  intros e s a num name auth H. cbn [sess_step]. unfold sess_req. cbn [act]. unfold bind_obj, nameget, numget.
  destruct H as [[o ->]|[o ->]]; [reflexivity|]. rewrite orb_true_r. reflexivity.
Qed.
Print Assumptions sess_bind_refused.

(** ... and otherwise it adds this object to the tables and nothing else. *)
Theorem sess_bind_ok : forall e cfg s h a num name auth, Forall plain cfg -> reach e (sess_init cfg) s h -> fits s h (SReq a (RBind num name auth) true) ->
  dget leqb (s_name s) name = None -> dget Z.eqb (s_num s) num = None -> num <> 0 \/ name <> [] -> zlen name <= 16 -> lower auth = [111; 102; 102] \/ pam_present e = true ->
  exists s' k o, sess_step e s (SReq a (RBind num name auth) true) = Ok (s', [OReply a (PBind k)]) /\
    o_kind o = KApi a /\ o_num o = num /\ o_name o = name /\ o_auth o = lower auth /\
    (forall q, dget Z.eqb (s_num s') q = if (q =? num) && negb (q =? 0) then Some o else dget Z.eqb (s_num s) q) /\
    (forall q, dget leqb (s_name s') q = if leqb q name && negb (leqb q []) then Some o else dget leqb (s_name s) q) /\
    s_conns s' = s_conns s /\
    (forall b j, dget Z.eqb (appget s b) j <> None -> j <> k).
Proof.
  intros e cfg s h a num name auth P H (IS & NG & FT) N1 N2 N3 N4 N5. pose proof (reach_inv e cfg s h P H) as V.
  cbn [sess_step]. unfold sess_req. cbn [act]. unfold bind_obj, nameget, numget. rewrite N1, N2. cbn [orb].
  assert (AU : negb (leqb (lower auth) s_off) && negb (pam_present e) = false).
  { destruct N5 as [X|X]; [change [111; 102; 102] with s_off in X; rewrite (proj2 (leqb_eq _ _) X); reflexivity|rewrite X; apply andb_false_r]. }
  rewrite AU, FT. assert (NE : (num =? 0) && negb (nonempty name) = false) by (destruct N3 as [X|X]; [lia|rewrite (proj2 (nonempty_b _) X); apply andb_false_r]). rewrite NE.
  replace (16 <? zlen name) with false by lia.
  set (o := {| o_id := s_next s; o_kind := KApi a; o_num := num; o_name := name; o_auth := lower auth; o_uid := None; o_gid := 0 |}).
  eexists _, (s_next s), o. split; [reflexivity|]. split; [reflexivity|]. split; [reflexivity|]. split; [reflexivity|]. split; [reflexivity|]. split; [|split; [|split]].
  - intros q. exact (register_num (bump s) o q).
  - intros q. replace (negb (leqb q [])) with (nonempty q) by (destruct q; reflexivity). exact (register_name (bump s) o q).
  - exact (proj1 (register_rest (bump s) o)).
  - intros b j X ->. destruct (dget Z.eqb (appget s b) (s_next s)) as [x|] eqn:Y; [|congruence]. apply (i_lt _ _ _ _ V) in Y. lia.
Qed.
Print Assumptions sess_bind_ok.

(** When an application exits or its connector fails for whatever reason,
    exactly its registrations disappear, and exactly its connections. *)
Theorem sess_gone_exact : forall e cfg s h x s' o a, Forall plain cfg -> reach e (sess_init cfg) s h -> fits s h x -> sess_step e s x = Ok (s', o) -> In (OCleanup a) o ->
  (forall k ob, dget Z.eqb (s_num s') k = Some ob <-> dget Z.eqb (s_num s) k = Some ob /\ o_kind ob <> KApi a) /\
  (forall k ob, dget leqb (s_name s') k = Some ob <-> dget leqb (s_name s) k = Some ob /\ o_kind ob <> KApi a) /\
  (forall n c, dget Z.eqb (s_conns s') n = Some c <-> dget Z.eqb (s_conns s) n = Some c /\ c_client c <> Some a).
Proof.
  intros e cfg s h x s' o a P H F E IC. pose proof (reach_inv e cfg s h P H) as V.
  assert (FI : filt a s s').
  { destruct x as [|n p st b|n i b|z r b|z]; cbn [sess_step] in E.
    - injection E as <- <-. destruct IC.
    - destruct (step_in e h s n p st b V F) as (s2 & o2 & E2 & _ & X). assert (Z0 : (s', o) = (s2, o2)) by congruence. injection Z0 as -> ->. auto.
    - destruct (step_item h s n i b V F) as (s2 & o2 & E2 & _ & X). assert (Z0 : (s', o) = (s2, o2)) by congruence. injection Z0 as -> ->.
      destruct (owner h n) as [[z k]|]; [|subst o2; destruct IC]. destruct (content i) as [c|]; [|subst o2; destruct IC]. destruct X as [_ X]. destruct b; [subst o2; destruct IC as [IC|[]]; discriminate|].
      destruct X as (o3 & -> & AB & FI). destruct IC as [IC|IC]; [injection IC as <-; exact FI|destruct (AB _ IC); discriminate].
    - destruct (step_req e h s z r b V F) as (s2 & o2 & E2 & _ & X & _). assert (Z0 : (s', o) = (s2, o2)) by congruence. injection Z0 as -> ->. auto.
    - destruct F as [IS NG]. destruct (step_exit h s z V IS NG) as (s2 & o2 & E2 & _ & X & AB & _). assert (Z0 : (s', o) = (s2, OCleanup z :: o2)) by congruence. injection Z0 as -> ->.
      destruct IC as [IC|IC]; [injection IC as <-; eapply near_exact; [apply near_refl|exact X]|destruct (AB _ IC); discriminate]. }
  destruct FI as (F1 & F2 & F3).
  assert (WS : forall r ob, without a r = Some ob <-> r = Some ob /\ o_kind ob <> KApi a).
  { intros r ob. split; [intros W; apply without_some in W; exact W|]. intros [-> W]. cbn [without]. destruct (ownedb a ob) eqn:X; [apply ownedb_spec in X; contradiction|reflexivity]. }
  split; [|split].
  - intros k ob. change (numget (s_num s') k = Some ob <-> numget (s_num s) k = Some ob /\ o_kind ob <> KApi a). rewrite F1. apply WS.
  - intros k ob. change (nameget (s_name s') k = Some ob <-> nameget (s_name s) k = Some ob /\ o_kind ob <> KApi a). rewrite F2. apply WS.
  - intros n c. rewrite F3. destruct (dget Z.eqb (s_conns s) n) as [[k [b|]]|]; cbn [cwithout c_client].
    + destruct (b =? a) eqn:X; split; intros Y; try discriminate.
      * apply Z.eqb_eq in X. subst b. destruct Y as [Y1 Y2]. injection Y1 as <-. exfalso. apply Y2. reflexivity.
      * injection Y as <-. split; [reflexivity|]. cbn [c_client]. intros Z0. injection Z0 as Z0. lia.
      * destruct Y as [Y _]. exact Y.
    + split; [intros Y; injection Y as <-; split; [reflexivity|discriminate]|intros [Y _]; exact Y].
    + split; [discriminate|intros [Y _]; discriminate].
Qed.
Print Assumptions sess_gone_exact.

(** An exit always succeeds; NSP is told to abort exactly the connections of
    this application. *)
Theorem sess_exit_aborts : forall e cfg s h a, Forall plain cfg -> reach e (sess_init cfg) s h -> fits s h (SExit a) ->
  exists s' o, sess_step e s (SExit a) = Ok (s', o) /\ In (OCleanup a) o /\ (forall n, In (OAbort n) o <-> exists k, owner h n = Some (a, k)) /\
    (forall k ob, dget Z.eqb (s_num s') k = Some ob -> o_kind ob <> KApi a) /\ (forall k ob, dget leqb (s_name s') k = Some ob -> o_kind ob <> KApi a).
Proof.
  intros e cfg s h a P H F. pose proof (reach_inv e cfg s h P H) as V. pose proof F as [IS NG].
  destruct (step_exit h s a V IS NG) as (s' & o & E & _ & _ & AB & AO). exists s', (OCleanup a :: o). split; [exact E|]. split; [left; reflexivity|].
  split; [intros n; rewrite <- AO; split; [intros [X|X]; [discriminate|exact X]|right; assumption]|].
  destruct (sess_gone_exact e cfg s h (SExit a) s' (OCleanup a :: o) a P H F E (or_introl eq_refl)) as (G1 & G2 & _).
  split; intros k ob X; [apply G1 in X|apply G2 in X]; tauto.
Qed.
Print Assumptions sess_exit_aborts.

(** ** C55: an item of a connection goes to the application that was told
    about the connection, or opened it, under the same handle, and to no
    other; if nobody owns the connection it goes nowhere. *)
Theorem sess_delivery : forall e cfg s h n i, Forall plain cfg -> reach e (sess_init cfg) s h -> fits s h (SItem n i true) ->
  exists s', sess_step e s (SItem n i true) = Ok (s', match owner h n, content i with Some (a, k), Some c => [OItem a k c] | _, _ => [] end) /\
    (forall a k, owner h n = Some (a, k) -> ~ gone h a).
Proof.
  intros e cfg s h n i P H F. pose proof (reach_inv e cfg s h P H) as V. destruct (step_item h s n i true V F) as (s' & o & E & _ & X). exists s'. cbn [sess_step]. rewrite E.
  split.
  - destruct (owner h n) as [[a k]|]; [|rewrite X; reflexivity]. destruct (content i); [|rewrite X; reflexivity]. destruct X as [_ ->]. reflexivity.
  - intros a k O. pose proof (i_ow _ _ _ _ V n) as W. rewrite O in W. pose proof (i_cli _ _ _ _ V n) as C. destruct (dget Z.eqb (s_conns s) n) as [[q [b|]]|]; try discriminate. injection W as <- <-. destruct (C _ eq_refl) as (_ & NG & _). exact NG.
Qed.
Print Assumptions sess_delivery.

(** Nothing else is ever delivered, but the news of an incoming connection. *)
Theorem sess_delivered : forall e cfg s h x s' o a k i, Forall plain cfg -> reach e (sess_init cfg) s h -> fits s h x -> sess_step e s x = Ok (s', o) -> In (OItem a k i) o ->
  (exists n it, x = SItem n it true /\ owner h n = Some (a, k) /\ content it = Some i) \/
  (exists n p st, x = SIn n p st true /\ owner (h ++ [(x, o)]) n = Some (a, k) /\ exists u b c d, i = AConnect u b c d).
Proof.
  intros e cfg s h x s' o a k i P H F E II. pose proof (reach_inv e cfg s h P H) as V. destruct x as [|n p st b|n it b|z r b|z]; cbn [sess_step] in E.
  - injection E as <- <-. destruct II.
  - right. exists n, p, st.
    assert (OUT : b = true /\ (exists u b c d, i = AConnect u b c d) /\ (o = [OItem a k i] \/ exists ob u g, o = [OStart a ob u g; OItem a k i])).
    { unfold sess_in in E. destruct (dget Z.eqb (s_conns s) n) as [c|]; [injection E as <- <-; destruct II|].
      destruct (sci_dec p) as [m|er]; [|destruct er; try discriminate; injection E as <- <-; destruct II as [II|[]]; discriminate].
      destruct (lookup s (sc_dst m)) as [ob|]; [|injection E as <- <-; destruct II as [II|[]]; discriminate].
      destruct (authorize e ob m) as [[ok uid] gid]. destruct ok; cbn [negb] in E; [|injection E as <- <-; destruct II as [II|[II|[]]]; discriminate].
      assert (AD : forall s1 ap hh ai s2 o2 x, app_dispatch s1 ap hh n false ai b = (s2, o2, x) -> In (OItem a k i) o2 -> b = true /\ o2 = [OItem ap hh ai] /\ x = None).
      { intros s1 ap hh ai s2 o2 x A0 I0. unfold app_dispatch in A0. destruct (dget Z.eqb (appget s1 ap) hh) as [[q|q]|].
        - destruct (q =? n); [|injection A0 as <- <- <-; destruct I0]. destruct b; [injection A0 as <- <- <-; auto|]. unfold cleanup in A0. destruct (cleanup_loop s1 _) as [[s3 o3] x3] eqn:CL. injection A0 as <- <- <-.
          apply cleanup_loop_quiet in CL. rewrite Forall_forall in CL. destruct I0 as [I0|I0]; [discriminate|]. destruct (CL _ I0); discriminate.
        - injection A0 as <- <- <-. destruct I0.
        - destruct b; [injection A0 as <- <- <-; auto|]. unfold cleanup in A0. destruct (cleanup_loop _ _) as [[s3 o3] x3] eqn:CL. injection A0 as <- <- <-.
          apply cleanup_loop_quiet in CL. rewrite Forall_forall in CL. destruct I0 as [I0|I0]; [discriminate|]. destruct (CL _ I0); discriminate. }
      destruct (o_kind ob) as [ap| |].
      - destruct (app_dispatch _ ap _ n false _ b) as [[s2 o2] xx] eqn:A0.
        assert (I0 : In (OItem a k i) o2) by (destruct xx; injection E as <- <-; [apply in_app_or in II; destruct II as [II|[II|[]]]; [exact II|discriminate]|exact II]).
        destruct (AD _ _ _ _ _ _ _ A0 I0) as (-> & -> & ->). injection E as <- <-. destruct I0 as [I0|[]]. injection I0 as -> -> <-. split; [reflexivity|]. split; [eexists _, _, _, _; reflexivity|left; reflexivity].
      - destruct st; [|injection E as <- <-; destruct II as [II|[]]; discriminate|injection E as <- <-; destruct II as [II|[]]; discriminate].
        destruct (app_dispatch _ _ _ n false _ b) as [[s2 o2] xx] eqn:A0.
        assert (I0 : In (OItem a k i) o2) by (destruct xx; injection E as <- <-; (destruct II as [II|II]; [discriminate|]); [apply in_app_or in II; destruct II as [II|[II|[]]]; [exact II|discriminate]|exact II]).
        destruct (AD _ _ _ _ _ _ _ A0 I0) as (-> & -> & ->). injection E as <- <-. destruct I0 as [I0|[]]. injection I0 as -> -> <-. split; [reflexivity|]. split; [eexists _, _, _, _; reflexivity|right; eauto].
      - destruct st; [|injection E as <- <-; destruct II as [II|[]]; discriminate|injection E as <- <-; destruct II as [II|[]]; discriminate].
        destruct (app_dispatch _ _ _ n false _ b) as [[s2 o2] xx] eqn:A0.
        assert (I0 : In (OItem a k i) o2) by (destruct xx; injection E as <- <-; (destruct II as [II|II]; [discriminate|]); [apply in_app_or in II; destruct II as [II|[II|[]]]; [exact II|discriminate]|exact II]).
        destruct (AD _ _ _ _ _ _ _ A0 I0) as (-> & -> & ->). injection E as <- <-. destruct I0 as [I0|[]]. injection I0 as -> -> <-. split; [reflexivity|]. split; [eexists _, _, _, _; reflexivity|right; eauto]. }
    destruct OUT as (-> & (u & b1 & c & d & ->) & OUT). split; [reflexivity|]. split; [|eauto 6]. rewrite owner_snoc. unfold owner1, shut. cbn [fst snd opened].
    destruct OUT as [-> |(ob & uu & g & ->)]; cbn [existsb orb]; rewrite Z.eqb_refl; reflexivity.
  - left. destruct (step_item h s n it b V F) as (s2 & o2 & E2 & _ & X). assert (Z0 : (s', o) = (s2, o2)) by congruence. injection Z0 as -> ->.
    destruct (owner h n) as [[z q]|] eqn:O; [|subst o2; destruct II]. destruct (content it) as [c|] eqn:CT; [|subst o2; destruct II]. destruct X as [_ X]. destruct b.
    + subst o2. destruct II as [II|[]]. injection II as -> -> ->. eauto.
    + destruct X as (o3 & -> & AB & _). destruct II as [II|II]; [discriminate|destruct (AB _ II); discriminate].
  - destruct (step_req e h s z r b V F) as (s2 & o2 & E2 & _ & _ & X). assert (Z0 : (s', o) = (s2, o2)) by congruence. injection Z0 as -> ->. exfalso. exact (X _ _ _ II).
  - destruct F as [IS NG]. destruct (step_exit h s z V IS NG) as (s2 & o2 & E2 & _ & _ & AB & _). assert (Z0 : (s', o) = (s2, OCleanup z :: o2)) by congruence. injection Z0 as -> ->.
    destruct II as [II|II]; [discriminate|destruct (AB _ II); discriminate].
Qed.
Print Assumptions sess_delivered.

(** ** C40, the other direction: a connection that is allowed reaches the
    application of its destination object, with what the remote user sent;
    for an object without authentication the credentials are withheld. *)
Definition news (o : obj) (m : sci) : aitem :=
  if leqb (o_auth o) [111; 102; 102] then AConnect [] false [] (sc_data m)
  else AConnect (sc_user m) (negb (leqb (sc_pass m) [])) (sc_acct m) (sc_data m).
Theorem sess_connect_delivered : forall e cfg s h n p m o, Forall plain cfg -> reach e (sess_init cfg) s h -> bytes_ok p ->
  dget Z.eqb (s_conns s) n = None -> sci_dec p = Ok m -> stands_for s (sc_dst m) o -> may_start e o m ->
  exists s' out a k, sess_step e s (SIn n p StOk true) = Ok (s', out) /\ owner (h ++ [(SIn n p StOk true, out)]) n = Some (a, k) /\
    match o_kind o with
    | KApi b => a = b /\ out = [OItem a k (news o m)]
    | _ => ~ isapp s a /\ exists u g, out = [OStart a o u g; OItem a k (news o m)]
    end.
Proof.
  intros e cfg s h n p m o P H BP NC DE ST MS. pose proof (reach_inv e cfg s h P H) as V. pose proof V as [A B C D E F K L M N O].
  cbn [sess_step]. unfold sess_in. rewrite NC, DE. apply lookup_spec in ST. rewrite ST. pose proof (proj2 (authorize_spec e o m) MS) as AU.
  destruct (authorize e o m) as [[ok uid] gid]. cbn [fst] in AU. subst ok. cbn [negb].
  set (i := AConnect _ _ _ _). assert (IN : i = news o m).
  { unfold i, news. change [111; 102; 102] with s_off. destruct (leqb (o_auth o) s_off); cbn [negb andb]; [reflexivity|]. destruct (sc_pass m); reflexivity. }
  assert (IC : exists u b c d, i = AConnect u b c d) by (eexists _, _, _, _; reflexivity).
  assert (VB : inv (gone h) (refused h) (owner h) (bump s)) by (apply inv_bump; exact V).
  assert (OW : forall o1 a k, (o1 = [] \/ exists u g, o1 = [OStart a o u g]) -> owner (h ++ [(SIn n p StOk true, o1 ++ [OItem a k i])]) n = Some (a, k)).
  { intros o1 a k O1. rewrite owner_snoc. unfold owner1, shut. cbn [fst snd opened]. destruct O1 as [-> |(u & g & ->)]; cbn [app existsb orb]; rewrite Z.eqb_refl; reflexivity. }
  assert (NEW : exists s' out a k, (let '(s0, o2, x) := app_dispatch (with_conns (bump (setapp (bump s) (s_next (bump s)) [])) (dset Z.eqb (s_conns (bump (setapp (bump s) (s_next (bump s)) []))) n {| c_handle := s_next s; c_client := Some (s_next (bump s)) |})) (s_next (bump s)) (s_next s) n false i true in
            match x with None => Ok (s0, [OStart (s_next (bump s)) o uid gid] ++ o2) | Some _ => Ok (s0, [OStart (s_next (bump s)) o uid gid] ++ o2 ++ [OReject n OBJ_FAIL]) end) = Ok (s', out) /\
            owner (h ++ [(SIn n p StOk true, out)]) n = Some (a, k) /\ ~ isapp s a /\ exists u g, out = [OStart a o u g; OItem a k (news o m)]).
  { assert (VO : inv (gone h) (refused h) (owner h) (bump (setapp (bump s) (s_next (bump s)) []))) by (apply inv_open; exact VB).
    assert (NA : ~ isapp (bump s) (s_next (bump s))) by (intros X; apply (i_app _ _ _ _ VB) in X; lia).
    destruct (announce h (bump (setapp (bump s) (s_next (bump s)) [])) (s_next (bump s)) (s_next s) n i true (SIn n p StOk true) [OStart (s_next (bump s)) o uid gid]) as (s' & o2 & E1 & E2 & E3 & E4); auto.
    - apply (isapp_set (bump s) (s_next (bump s)) []). auto.
    - intros X. apply NA. apply (i_gone _ _ _ _ VB). exact X.
    - change (dget Z.eqb (appget (setapp (bump s) (s_next (bump s)) []) (s_next (bump s))) (s_next s) = None). rewrite appget_set, Z.eqb_refl. reflexivity.
    - change (s_next s < s_next s + 1 + 1). lia.
    - eauto.
    - right. eauto.
    - rewrite E1. destruct (E3 eq_refl) as [-> _]. eexists _, _, _, _. split; [reflexivity|]. split; [apply OW; right; eauto|]. split; [exact NA|]. rewrite <- IN. eexists _, _. reflexivity. }
  destruct (o_kind o) as [ap| |] eqn:KO; [|exact NEW|exact NEW].
  assert (REG : numget (s_num s) (o_num o) = Some o \/ nameget (s_name s) (o_name o) = Some o).
  { destruct (sc_dst m) as [nn|nm|gg uu nm]; cbn [lookup] in ST; [left; destruct (A _ _ ST) as [X _]; rewrite X; exact ST|right; destruct (B _ _ ST) as [X _]; rewrite X; exact ST|right; destruct (B _ _ ST) as [X _]; rewrite X; exact ST]. }
  destruct (C o ap KO REG) as (IS & NG & _).
  destruct (announce h (bump s) ap (s_next s) n i true (SIn n p StOk true) []) as (s' & o2 & E1 & E2 & E3 & E4); auto.
  - destruct (dget Z.eqb (appget (bump s) ap) (s_next s)) as [x|] eqn:X; [|reflexivity]. apply L in X. lia.
  - change (s_next s < s_next s + 1). lia.
  - eauto.
  - rewrite E1. destruct (E3 eq_refl) as [-> _]. eexists _, _, _, _. split; [reflexivity|]. split; [apply (OW []); auto|]. rewrite <- IN. auto.
Qed.
Print Assumptions sess_connect_delivered.

(** ** A history: two applications with one object each, a connection to the
    first, data both ways, then the first one exits. *)
Definition ex_conn (nm : list Z) : list Z := [1; 0; zlen nm] ++ nm ++ [0; 1; 0].
Definition ex_steps : list sstep :=
  [SOpen; SOpen; SReq 1 (RBind 0 [65] s_off) true; SReq 2 (RBind 200 [66] s_off) true; SReq 2 (RBind 200 [67] s_off) true;
   SIn 1000 (ex_conn [97]) StOk true; SReq 1 (RUse 5 NOk) true; SItem 1000 (NIData [1; 2]) true; SReq 2 (RConnect 1001 NOk) true; SItem 1001 (NIConf [3]) true; SExit 1; SItem 1000 (NIData [4]) true].
Example sess_ex : exists s, sess_run ex_env (sess_init []) ex_steps =
  Ok (s, [OReply 1 (PBind 3); OReply 2 (PBind 4); OReply 2 PError; OItem 1 5 (AConnect [] false [] []); ONsp 1000; OItem 1 5 (AData [1; 2]); ONsp 1001; OReply 2 (PConnecting 6); OItem 2 6 (AAccept [3]); OCleanup 1; OAbort 1000])
  /\ dkeys (s_name s) = [[66]] /\ dkeys (s_num s) = [200] /\ dkeys (s_conns s) = [1001].
Proof. eexists. split; [vm_compute; reflexivity|]. split; [vm_compute; reflexivity|]. split; vm_compute; reflexivity. Qed.

Lemma reach_run : forall e s0 s h x s' o, reach e s0 s h -> fits s h x -> sess_step e s x = Ok (s', o) -> reach e s0 s' (h ++ [(x, o)]).
Proof. intros. econstructor; eauto. Qed.
Ltac not_in := let X := fresh "X" in intros X; vm_compute in X; repeat (destruct X as [X|X]; [discriminate X|]); destruct X.
Ltac fits_ex := lazymatch goal with
  | |- fits _ _ SOpen => exact I
  | |- fits _ _ (SIn _ ?p _ _) => let q := eval vm_compute in p in change (Forall byte_ok q); repeat (constructor; [unfold byte_ok; lia|]); constructor
  | |- fits _ _ (SItem _ _ _) => intros [? X]; revert X; not_in
  | |- fits _ _ (SReq _ _ _) => split; [eexists; vm_compute; reflexivity|]; split; [not_in|vm_compute; try reflexivity; exact I]
  | |- fits _ _ (SExit _) => split; [eexists; vm_compute; reflexivity|not_in]
  end.
Ltac go R x := let E := fresh "E" in lazymatch type of R with reach _ _ ?s _ => let r := eval vm_compute in (sess_step ex_env s x) in lazymatch r with Ok (?s', ?o) =>
  assert (E : sess_step ex_env s x = Ok (s', o)) by (vm_compute; reflexivity); apply (reach_run _ _ _ _ x _ _ R) in E; [clear R; rename E into R|clear R E; fits_ex] end end.
Example sess_reach_ex : exists s h, reach ex_env (sess_init []) s h /\ map fst h = firstn 11 ex_steps /\ owner h 1000 = None /\ owner h 1001 = Some (2, 6) /\ fits s h (SItem 1001 (NIData [7]) true) /\ fits s h (SReq 2 (RBind 0 [65] s_off) true).
Proof.
  pose proof (r_init ex_env (sess_init [])) as R. unfold ex_steps.
  go R SOpen. go R SOpen. go R (SReq 1 (RBind 0 [65] s_off) true). go R (SReq 2 (RBind 200 [66] s_off) true). go R (SReq 2 (RBind 200 [67] s_off) true).
  go R (SIn 1000 (ex_conn [97]) StOk true). go R (SReq 1 (RUse 5 NOk) true). go R (SItem 1000 (NIData [1; 2]) true). go R (SReq 2 (RConnect 1001 NOk) true). go R (SItem 1001 (NIConf [3]) true). go R (SExit 1).
  eexists _, _. split; [exact R|]. split; [reflexivity|]. split; [reflexivity|]. split; [reflexivity|]. split; fits_ex.
Qed.

(** ** Not so without [fits] *)
(** The name is looked up before it is made upper case: "abc" is accepted
    although "ABC" is in use, takes over its connections, and disappears when
    the first owner exits; the exit of the second one then stops the node. *)
Theorem sess_alias_refuted :
  (exists s, sess_run ex_env (sess_init []) [SOpen; SOpen; SReq 1 (RBind 0 [65; 66] s_off) true; SReq 2 (RBind 0 [97; 98] s_off) true; SIn 9 (ex_conn [65; 66]) StOk true; SExit 1] =
     Ok (s, [OReply 1 (PBind 3); OReply 2 (PBind 4); OItem 2 5 (AConnect [] false [] []); OCleanup 1]) /\ s_name s = []) /\
  sess_run ex_env (sess_init []) [SOpen; SOpen; SReq 1 (RBind 0 [65; 66] s_off) true; SReq 2 (RBind 0 [97; 98] s_off) true; SExit 1; SExit 2] = Err EKey.
Proof. split; [eexists; split; vm_compute; reflexivity|vm_compute; reflexivity]. Qed.
Print Assumptions sess_alias_refuted.

(** The exception handler does not forget what it has closed.  An application
    that makes a bad request and then exits stops the node, or takes away the
    object another application has registered under the name meanwhile. *)
Theorem sess_twice_refuted :
  sess_run ex_env (sess_init []) [SOpen; SReq 1 (RBind 0 [65] s_off) true; SReq 1 RBadArgs true; SExit 1] = Err EKey /\
  exists s o, sess_run ex_env (sess_init []) [SOpen; SOpen; SReq 1 (RBind 0 [65] s_off) true; SReq 1 RBadArgs true; SReq 2 (RBind 0 [65] s_off) true; SExit 1] = Ok (s, o) /\ s_name s = [].
Proof. split; [vm_compute; reflexivity|]. eexists _, _. split; vm_compute; reflexivity. Qed.
Print Assumptions sess_twice_refuted.

(** A connection refused because its program could not be started stays in
    the table without an application; anything more on it stops the node. *)
Theorem sess_orphan_refuted :
  sess_run ex_env (sess_init [CObj KFile 17 [70] s_off None 0]) [SIn 9 [0; 17; 0; 1; 0] StNotFound true; SItem 9 (NIDisc false 0 []) true] = Err EAttr.
Proof. vm_compute. reflexivity. Qed.
Print Assumptions sess_orphan_refuted.
