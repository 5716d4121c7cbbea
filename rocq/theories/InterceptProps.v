(** C53: Phase II intercept. *)
From Verif Require Import Base Dict PacketModel NspPktModel NspPktProps InterceptModel.

(** * Specification *)
(** Messages that belong to an established link, with the sender's link
    address: data, interrupt, link service and their acknowledgments. *)
Inductive carries : npkt -> Z -> Prop :=
| ca_data : forall d s a1 a2 seg dly b e pl, carries (NData d s a1 a2 seg dly b e pl) s
| ca_int : forall d s a1 a2 seg pl, carries (NInt d s a1 a2 seg pl) s
| ca_ls : forall d s a1 a2 seg m i v, carries (NLs d s a1 a2 seg m i v) s
| ca_ack : forall d s a1 a2, carries (NAckData d s a1 a2) s
| ca_oth : forall d s a1 a2, carries (NAckOther d s a1 a2) s.
(** The neighbor, this node and the nodes in the database have addresses. *)
Definition cfg_ok (c : icfg) : Prop := n_id c <> 0 /\ my_id c <> 0 /\ forall n, byname c n <> Some 0.
(** Whom a route header of the neighbor stands for: the source must be the
    neighbor or left out; the destination is this node if left out. *)
Definition goal (c : icfg) (dst src : list Z) : option Z :=
  if leqb src [] || leqb src (n_name c) then (if leqb dst [] then Some (my_id c) else byname c dst) else None.
(** The peer of the neighbor's link [l], from the history: set by a connect
    initiate or confirm of the neighbor, until either end sends a
    disconnect. *)
Definition peer1 (c : icfg) (w : Z -> option Z) (x : istep) (l : Z) : option Z :=
  match x with
  | IRecv (Routed dst src b) =>
      match goal c dst src, decode b with
      | Some d, Ok (NCI _ s _ _ _ _) | Some d, Ok (NCC _ s _ _ _ _) => if s =? l then Some d else w l
      | Some d, Ok (NDI _ s _ _) | Some d, Ok (NDC _ s _) => if s =? l then None else w l
      | _, _ => w l
      end
  | ISend p =>
      if r_dst p =? n_id c then match decode (r_payload p) with Ok (NDI d _ _ _) | Ok (NDC d _ _) => if d =? l then None else w l | _ => w l end else w l
  | _ => w l
  end.
Definition peer (c : icfg) (h : list istep) : Z -> option Z := fold_left (peer1 c) h (fun _ => None).
(** No disconnect sent to the neighbor has, as its source address (which
    belongs to the other end), the number of another open link of the
    neighbor. *)
Fixpoint clean (c : icfg) (w : Z -> option Z) (h : list istep) : Prop :=
  match h with
  | [] => True
  | x :: t =>
      (match x with
       | ISend p => forall d s, r_dst p = n_id c -> (exists r dt, decode (r_payload p) = Ok (NDI d s r dt)) \/ (exists r, decode (r_payload p) = Ok (NDC d s r)) -> s = d \/ w s = None
       | _ => True
       end) /\ clean c (peer1 c w x) t
  end.

(** * Lemmas *)
Lemma truthy_spec : forall o, o <> Some 0 -> truthy_id o = o.
Proof. intros [[|p|p]|] H; try reflexivity. congruence. Qed.
Lemma goal_spec : forall c dst src, cfg_ok c ->
  match truthy_id (mapsrc IFull c src), truthy_id (mapdst IFull c dst) with
  | Some s, Some d => goal c dst src = Some d /\ s = n_id c
  | _, _ => goal c dst src = None
  end.
Proof.
  intros c dst src (H1 & H2 & H3). unfold goal.
  assert (D : truthy_id (mapdst IFull c dst) = if leqb dst [] then Some (my_id c) else byname c dst).
  { destruct dst as [|x dst]; cbn [mapdst leqb]; apply truthy_spec; [congruence|apply H3]. }
  rewrite D. destruct src as [|x src]; cbn [mapsrc].
  - rewrite truthy_spec by congruence. replace (leqb [] [] || leqb [] (n_name c)) with true by reflexivity. destruct (if leqb dst [] then _ else _); auto.
  - replace (leqb (x :: src) []) with false by reflexivity. cbn [orb]. destruct (leqb (x :: src) (n_name c)); [rewrite truthy_spec by congruence; destruct (if leqb dst [] then _ else _); auto|reflexivity].
Qed.
Lemma carries_spec : forall m s, ackhdr_src m = Some s <-> carries m s.
Proof. intros m s. split; [destruct m; cbn [ackhdr_src]; intros H; try discriminate; injection H as <-; constructor|intros []; reflexivity]. Qed.
Lemma step_peer : forall c db w x db' o, cfg_ok c -> (forall l, dget Z.eqb db l = w l) -> clean c w [x] -> icpt_step IFull c db x = Ok (db', o) -> forall l, dget Z.eqb db' l = peer1 c w x l.
Proof.
  intros c db w x db' o CO W (CL & _) H l. destruct x as [[b|dst src b]|p]; cbn [icpt_step peer1] in *.
  - unfold icpt_recv in H. destruct (noroutehdr IFull c db b); [|discriminate]. cbn [bind] in H. injection H as <- <-. apply W.
  - unfold icpt_recv in H. pose proof (goal_spec c dst src CO) as G.
    assert (NG : goal c dst src = None -> dget Z.eqb db l = match goal c dst src, decode b with
      | Some d, Ok (NCI _ s _ _ _ _) | Some d, Ok (NCC _ s _ _ _ _) => if s =? l then Some d else w l
      | Some d, Ok (NDI _ s _ _) | Some d, Ok (NDC _ s _) => if s =? l then None else w l
      | _, _ => w l end) by (intros -> ; apply W).
    destruct (truthy_id (mapsrc IFull c src)) as [s|]; [destruct (truthy_id (mapdst IFull c dst)) as [d|]|].
    2,3: destruct (makedc c b src dst); [|discriminate]; cbn [bind] in H; injection H as <- <-; exact (NG G).
    destruct G as [G _]. rewrite G. unfold routehdr in H. destruct (decode b) as [m|er].
    2:{ destruct er; try discriminate. cbn [bind] in H. injection H as <- <-. apply W. }
    destruct m; cbn [bind] in H; injection H as <- <-; rewrite ?(dget_dset Z.eqb decides_Z), ?(dget_ddel Z.eqb decides_Z), ?W, ?(Z.eqb_sym l); reflexivity.
  - unfold icpt_send in H. destruct (r_rts p); [discriminate|]. destruct (r_dst p =? n_id c) eqn:DN; cbn [negb] in H.
    2:{ injection H as <- <-. apply W. }
    specialize (CL). apply Z.eqb_eq in DN. destruct (decode (r_payload p)) as [m|er].
    2:{ destruct er; try discriminate. injection H as <- <-. apply W. }
    set (db2 := match m with NDI d s _ _ | NDC d s _ => _ | _ => db end) in H.
    assert (E : db' = db2) by (destruct (_ && _) in H; [destruct (with_header c p); [|discriminate]; cbn [bind] in H|]; injection H as <- <-; reflexivity).
    rewrite E. unfold db2.
    assert (TWO : forall d s, s = d \/ w s = None -> dget Z.eqb (ddel Z.eqb (ddel Z.eqb db s) d) l = if d =? l then None else w l).
    { intros d s Q. rewrite !(dget_ddel Z.eqb decides_Z), (Z.eqb_sym l d). destruct (d =? l) eqn:Y; [reflexivity|]. destruct (l =? s) eqn:Y2; [|apply W]. apply Z.eqb_eq in Y2. subst s. destruct Q as [Q|Q]; [lia|]. symmetry. exact Q. }
    destruct m as [| | | | | | | |d s r dt|d s r|]; try apply W; apply TWO; apply CL; auto; [left|right]; eauto.
Qed.
Lemma run_peer : forall c h db w db' os, cfg_ok c -> (forall l, dget Z.eqb db l = w l) -> clean c w h -> icpt_run IFull c db h = Ok (db', os) ->
  forall l, dget Z.eqb db' l = fold_left (peer1 c) h w l.
Proof.
  induction h as [|x h IH]; intros db w db' os CO W CL H l; cbn [icpt_run] in H.
  - injection H as <- <-. apply W.
  - destruct (icpt_step IFull c db x) as [[db1 o]|] eqn:S1; [|discriminate]. cbn [bind] in H. destruct (icpt_run IFull c db1 h) as [[db2 os2]|] eqn:R; [|discriminate]. cbn [bind] in H. injection H as <- <-.
    cbn [fold_left]. destruct CL as [C1 C2]. eapply IH; eauto. intros l2. eapply step_peer; eauto. split; [exact C1|exact I].
Qed.

(** * Theorems *)
(** C53: a message of an established link that comes without a route header is
    forwarded, unchanged and in the neighbor's name, to the peer named when
    the connection was set up; without one, it is for this node, as are all
    other messages. *)
Theorem icpt_relay : forall c h db os b m, cfg_ok c -> clean c (fun _ => None) h -> icpt_run IFull c [] h = Ok (db, os) -> decode b = Ok m ->
  (forall s, carries m s -> icpt_step IFull c db (IRecv (Bare b)) =
     Ok (db, ORecv (RForward {| r_dst := match peer c h s with Some d => d | None => my_id c end; r_src := n_id c; r_rts := false; r_payload := b |}))) /\
  ((forall s, ~ carries m s) -> icpt_step IFull c db (IRecv (Bare b)) = Ok (db, ORecv (RForward {| r_dst := my_id c; r_src := n_id c; r_rts := false; r_payload := b |}))).
Proof.
  intros c h db os b m CO CL H D. cbn [icpt_step]. unfold icpt_recv, noroutehdr. rewrite D. split.
  - intros s C. apply carries_spec in C. rewrite C. rewrite (run_peer c h [] (fun _ => None) db os CO (fun l => eq_refl) CL H s). unfold peer. destruct (fold_left (peer1 c) h (fun _ => None) s); reflexivity.
  - intros N. destruct (ackhdr_src m) as [s|] eqn:C; [exfalso; apply carries_spec in C; exact (N s C)|]. reflexivity.
Qed.
Print Assumptions icpt_relay.

(** With a route header, the message goes to the node named there, in the
    neighbor's name.  If the header names another source or an unknown
    destination the neighbor gets a disconnect confirm, "unreachable", for its
    link, in the name of that destination; a disconnect confirm or a malformed
    message gets no answer. *)
Theorem icpt_routed : forall c db dst src b, cfg_ok c -> bytes_ok b ->
  (forall d, goal c dst src = Some d -> exists db', icpt_step IFull c db (IRecv (Routed dst src b)) =
     Ok (db', ORecv (RForward {| r_dst := d; r_src := n_id c; r_rts := false; r_payload := b |}))) /\
  (goal c dst src = None ->
     (decode b = Err EDecode \/ (exists x y r, decode b = Ok (NDC x y r)) -> icpt_step IFull c db (IRecv (Routed dst src b)) = Ok (db, ORecv (RReply None))) /\
     (forall m x y, decode b = Ok m -> addrs m = Ok (x, y) -> (forall r, m <> NDC x y r) ->
        exists q, encode (NDC y x 39) = Ok q /\
          icpt_step IFull c db (IRecv (Routed dst src b)) = Ok (db, ORecv (RReply (Some (if n_rint c then Routed src dst q else Bare q)))))).
Proof.
  intros c db dst src b CO BO. cbn [icpt_step]. unfold icpt_recv. pose proof (goal_spec c dst src CO) as G. pose proof (nsp_decode_safe b BO) as SAFE. split.
  - intros d GD. destruct (truthy_id (mapsrc IFull c src)) as [s|]; [destruct (truthy_id (mapdst IFull c dst)) as [d2|]|]; try congruence.
    destruct G as [G ->]. assert (d2 = d) by congruence. subst d2. unfold routehdr. destruct SAFE as [-> |(m & -> & _)]; [eexists; reflexivity|]. destruct m; eexists; reflexivity.
  - intros GN.
    assert (E : (match truthy_id (mapsrc IFull c src), truthy_id (mapdst IFull c dst) with
       | Some s, Some d => let* db0 := routehdr IFull db b d in Ok (db0, RForward {| r_dst := d; r_src := s; r_rts := false; r_payload := b |})
       | _, _ => let* r := makedc c b src dst in Ok (db, RReply r) end) = let* r := makedc c b src dst in Ok (db, RReply r)).
    { destruct (truthy_id (mapsrc IFull c src)) as [s|]; [destruct (truthy_id (mapdst IFull c dst)) as [d2|]|]; try reflexivity. destruct G as [G _]. congruence. }
    rewrite E. unfold makedc. split.
    + intros [-> |(x & y & r & ->)]; reflexivity.
    + intros m x y D A ND. rewrite D. destruct SAFE as [X|(m2 & X & R)]; [congruence|]. assert (m2 = m) by congruence. subst m2.
      assert (WXY : word x /\ word y).
      { destruct m; cbn [addrs] in A; try discriminate; injection A as <- <-; cbn [in_range] in R; unfold word in *; lia. }
      assert (EN : exists q, encode (NDC y x unreach) = Ok q).
      { destruct (nsp_round_trip (NDC y x unreach)) as [Q _]; [cbn [in_range]; unfold unreach, word in *; lia|exact I|]. eauto. }
      destruct EN as [q EN]. exists q. split; [exact EN|].
      destruct m; rewrite ?A; cbn [bind]; rewrite ?EN; try reflexivity. exfalso. cbn [addrs] in A. injection A as -> ->. eapply ND. reflexivity.
Qed.
Print Assumptions icpt_routed.

(** Nothing is forwarded in another node's name: the neighbor cannot pose as
    somebody else. *)
Theorem icpt_no_spoofing : forall k c db p db' q, k <> IEnd -> icpt_step k c db (IRecv p) = Ok (db', ORecv (RForward q)) -> r_src q = n_id c /\ r_rts q = false /\
  match p with Bare b => r_payload q = b | Routed dst src b => r_payload q = b /\ (src = [] \/ src = n_name c) end.
Proof.
  intros k c db [b|dst src b] db' q NE H; cbn [icpt_step] in H; unfold icpt_recv in H.
  - destruct (noroutehdr k c db b); [|discriminate]. cbn [bind] in H. injection H as <- <-. auto.
  - destruct (truthy_id (mapsrc k c src)) as [s|] eqn:S1; [destruct (truthy_id (mapdst k c dst)) as [d|]|].
    2,3: destruct (makedc c b src dst); discriminate.
    destruct (routehdr k db b d); [|discriminate]. cbn [bind] in H. injection H as <- <-. cbn [r_src r_rts r_payload].
    assert (Q : s = n_id c /\ (src = [] \/ src = n_name c)).
    { unfold mapsrc in S1. destruct src as [|x src].
      - split; [|auto]. destruct (n_id c) as [|p|p]; cbn [truthy_id] in S1; congruence.
      - destruct k; [|congruence|]; (destruct (leqb (x :: src) (n_name c)) eqn:L; [|discriminate]; apply leqb_eq in L; split; [|auto]; destruct (n_id c) as [|p|p]; cbn [truthy_id] in S1; congruence). }
    destruct Q as [-> Q]. auto.
Qed.
Print Assumptions icpt_no_spoofing.

(** What the neighbor gets: messages addressed to it, unchanged; those of
    other nodes that are not part of an established link come with a route
    header naming both nodes.  Anything else is not sent. *)
Theorem icpt_send_exact : forall c db p, bytes_ok (r_payload p) -> r_rts p = false ->
  (r_dst p <> n_id c -> icpt_step IFull c db (ISend p) = Ok (db, OSend SRefuse)) /\
  (r_dst p = n_id c -> decode (r_payload p) = Err EDecode -> icpt_step IFull c db (ISend p) = Ok (db, OSend SNone)) /\
  (r_dst p = n_id c -> forall m, decode (r_payload p) = Ok m ->
     (r_src p = my_id c \/ (exists s, carries m s) -> exists db', icpt_step IFull c db (ISend p) = Ok (db', OSend (SSend (Bare (r_payload p))))) /\
     (r_src p <> my_id c -> (forall s, ~ carries m s) -> forall s d, byid c (r_src p) = Some s -> byid c (n_id c) = Some d ->
        exists db', icpt_step IFull c db (ISend p) = Ok (db', OSend (SSend (Routed d s (r_payload p)))))).
Proof.
  intros c db p BO R. cbn [icpt_step]. unfold icpt_send. rewrite R. split; [|split].
  - intros N. replace (r_dst p =? n_id c) with false by lia. reflexivity.
  - intros -> -> . rewrite Z.eqb_refl. reflexivity.
  - intros DN m D. rewrite DN, Z.eqb_refl. cbn [negb]. rewrite D. split.
    + intros Q. replace (negb (r_src p =? my_id c) && match ackhdr_src m with Some _ => false | None => true end) with false; [eexists; reflexivity|].
      destruct Q as [Q|[s Q]]; [rewrite Q, Z.eqb_refl; reflexivity|]. apply carries_spec in Q. rewrite Q, andb_false_r. reflexivity.
    + intros N NC s d B1 B2. replace (r_src p =? my_id c) with false by lia. cbn [negb andb].
      destruct (ackhdr_src m) as [x|] eqn:X; [exfalso; apply carries_spec in X; exact (NC x X)|]. unfold with_header. rewrite B1, DN, B2. eexists. reflexivity.
Qed.
Print Assumptions icpt_send_exact.

(** The circuits to a neighbor that does not want intercept service, and to one
    that offers it: to the first goes only what this node has for it, without
    header; to the second what this node has for anyone, with a header naming
    both nodes unless it is for the neighbor itself.  Nothing else is sent, and
    nothing is remembered. *)
Theorem icpt_send_simple : forall c db p, r_rts p = false ->
  (r_src p <> my_id c -> icpt_step INo c db (ISend p) = Ok (db, OSend SRefuse) /\ icpt_step IEnd c db (ISend p) = Ok (db, OSend SRefuse)) /\
  (r_src p = my_id c -> r_dst p = n_id c -> forall k, k <> IFull -> icpt_step k c db (ISend p) = Ok (db, OSend (SSend (Bare (r_payload p))))) /\
  (r_src p = my_id c -> r_dst p <> n_id c -> icpt_step INo c db (ISend p) = Ok (db, OSend SRefuse) /\
     forall s d, byid c (r_src p) = Some s -> byid c (r_dst p) = Some d -> icpt_step IEnd c db (ISend p) = Ok (db, OSend (SSend (Routed d s (r_payload p))))).
Proof.
  intros c db p R. cbn [icpt_step]. unfold icpt_send. rewrite R. split; [|split].
  - intros N. replace (r_src p =? my_id c) with false by lia. rewrite orb_true_r. split; reflexivity.
  - intros -> -> k K. rewrite !Z.eqb_refl. destruct k; try reflexivity. contradiction.
  - intros E N. replace (r_src p =? my_id c) with true by lia. replace (r_dst p =? n_id c) with false by lia. cbn [negb orb]. split; [reflexivity|].
    intros s d S D. unfold with_header. rewrite S, D. reflexivity.
Qed.
Print Assumptions icpt_send_simple.

(** Exactly when it fails (and the node stops): *)
Theorem icpt_fails : forall c db x, cfg_ok c -> (match x with IRecv (Bare b) | IRecv (Routed _ _ b) => bytes_ok b | ISend p => bytes_ok (r_payload p) end) ->
  ((exists e, icpt_step IFull c db x = Err e) <->
   match x with
   | IRecv (Bare _) => False
   | IRecv (Routed dst src b) => goal c dst src = None /\ ((exists d, decode b = Ok (NAckConn d)) \/ decode b = Ok NEmpty)
   | ISend p => r_rts p = true \/ (r_dst p = n_id c /\ r_src p <> my_id c /\ (exists m, decode (r_payload p) = Ok m /\ forall s, ~ carries m s) /\ (byid c (r_src p) = None \/ byid c (n_id c) = None))
   end).
Proof.
  intros c db x CO BO. destruct x as [[b|dst src b]|p]; cbn [icpt_step].
  - unfold icpt_recv, noroutehdr. destruct (nsp_decode_safe b BO) as [-> |(m & -> & _)]; cbn [bind]; [split; [intros [e X]; discriminate|intros []]|].
    destruct (ackhdr_src m) as [s|]; [destruct (dget Z.eqb db s)|]; cbn [bind]; (split; [intros [e X]; discriminate|intros []]).
  - destruct (goal c dst src) as [d|] eqn:G.
    + destruct (proj1 (icpt_routed c db dst src b CO BO) d G) as [db' E]. cbn [icpt_step] in E. rewrite E. split; [intros [e X]; discriminate|intros [X _]; discriminate].
    + destruct (proj2 (icpt_routed c db dst src b CO BO) G) as [E1 E2]. cbn [icpt_step] in E1, E2.
      destruct (nsp_decode_safe b BO) as [D|(m & D & _)].
      * rewrite E1 by auto. split; [intros [e X]; discriminate|]. intros (_ & [[d X]|X]); congruence.
      * assert (AC : (exists x y, addrs m = Ok (x, y) /\ ((exists r, m = NDC x y r) \/ forall r, m <> NDC x y r)) \/ (exists d, m = NAckConn d) \/ m = NEmpty).
        { destruct m; cbn [addrs]; try (left; eexists _, _; split; [reflexivity|]; first [left; eexists; reflexivity|right; intros; discriminate]); [right; left; eauto|right; right; reflexivity]. }
        destruct AC as [(x & y & A & [[r ->]|ND])|[[d ->]| ->]].
        -- rewrite E1 by eauto. split; [intros [e X]; discriminate|]. intros (_ & [[d X]|X]); congruence.
        -- destruct (E2 m x y D A ND) as (q & _ & E). rewrite E. split; [intros [e X]; discriminate|]. intros (_ & [[d X]|X]); [assert (m = NAckConn d) by congruence|assert (m = NEmpty) by congruence]; subst m; discriminate.
        -- split; [intros _; split; [reflexivity|]; eauto|]. intros _. unfold icpt_recv. pose proof (goal_spec c dst src CO) as GS. unfold makedc. rewrite D. destruct (truthy_id (mapsrc IFull c src)) as [s|]; [destruct (truthy_id (mapdst IFull c dst)) as [d2|]|]; try (eexists; reflexivity). destruct GS; congruence.
        -- split; [intros _; split; [reflexivity|]; eauto|]. intros _. unfold icpt_recv. pose proof (goal_spec c dst src CO) as GS. unfold makedc. rewrite D. destruct (truthy_id (mapsrc IFull c src)) as [s|]; [destruct (truthy_id (mapdst IFull c dst)) as [d2|]|]; try (eexists; reflexivity). destruct GS; congruence.
  - unfold icpt_send. destruct (r_rts p); [split; [auto|intros _; eexists; reflexivity]|].
    destruct (r_dst p =? n_id c) eqn:DN; cbn [negb]; [apply Z.eqb_eq in DN|split; [intros [e X]; discriminate|intros [X|(X & _)]; [discriminate|lia]]].
    destruct (nsp_decode_safe (r_payload p) BO) as [D|(m & D & _)]; rewrite D.
    { split; [intros [e X]; discriminate|]. intros [X|(_ & _ & (m & X & _) & _)]; [discriminate|congruence]. }
    assert (NC : ackhdr_src m = None <-> forall s, ~ carries m s).
    { split; [intros N s X; apply carries_spec in X; congruence|]. intros N. destruct (ackhdr_src m) as [s|] eqn:X; [exfalso; apply carries_spec in X; exact (N s X)|reflexivity]. }
    destruct (r_src p =? my_id c) eqn:SM; cbn [negb andb].
    { apply Z.eqb_eq in SM. split; [intros [e X]; discriminate|]. intros [X|(_ & X & _)]; [discriminate|contradiction]. }
    destruct (ackhdr_src m) as [s|] eqn:X.
    { split; [intros [e Y]; discriminate|]. intros [Y|(_ & _ & (m2 & D2 & N) & _)]; [discriminate|]. assert (m2 = m) by congruence. subst m2. apply NC in N. discriminate. }
    unfold with_header. rewrite DN. destruct (byid c (r_src p)) as [sn|], (byid c (n_id c)) as [dn|]; cbn [bind];
      (split; [intros [e Y]; try discriminate; (right; split; [reflexivity|]; split; [lia|]; split; [exists m; split; [reflexivity|apply NC; reflexivity]|auto])
             |intros [Y|(_ & _ & _ & [Y|Y])]; try discriminate; (eexists; reflexivity)]).
Qed.
Print Assumptions icpt_fails.

(** * A concrete neighbor: node 5 "PDP" behind node 1 "RSX", which knows node 7
    "VAX" too. *)
Definition ic : icfg := {| n_id := 5; n_name := [80; 68; 80]; n_rint := true; my_id := 1; my_name := [82; 83; 88];
  byname := fun n => if leqb n [80; 68; 80] then Some 5 else if leqb n [86; 65; 88] then Some 7 else if leqb n [82; 83; 88] then Some 1 else None;
  byid := fun i => if i =? 5 then Some [80; 68; 80] else if i =? 7 then Some [86; 65; 88] else if i =? 1 then Some [82; 83; 88] else None |}.
Definition enc (p : npkt) : list Z := match encode p with Ok b => b | Err _ => [] end.
(** Two connections: link 100 to VAX (by a connect initiate), link 200 to this node. *)
Definition ih : list istep :=
  [IRecv (Routed [86; 65; 88] [80; 68; 80] (enc (NCI false 100 0 2 576 [1; 2])));
   ISend {| r_dst := 5; r_src := 7; r_rts := false; r_payload := enc (NCC 100 300 0 2 576 []) |};
   IRecv (Routed [] [] (enc (NCI false 200 0 2 576 [3])))].
Definition idata (s : Z) : list Z := enc (NData 300 s None None 1 0 1 1 [7; 8; 9]).
Lemma ic_ok : cfg_ok ic.
Proof. repeat split; try (cbn; lia). intros n. cbn [byname ic]. repeat match goal with |- context [leqb ?a ?b] => destruct (leqb a b) end; congruence. Qed.
Example icpt_relay_ex : cfg_ok ic /\ clean ic (fun _ => None) ih /\
  match icpt_run IFull ic [] ih with
  | Ok (db, os) =>
      nth 1 os (OSend SNone) = OSend (SSend (Routed [80; 68; 80] [86; 65; 88] (enc (NCC 100 300 0 2 576 [])))) /\
      icpt_step IFull ic db (IRecv (Bare (idata 100))) = Ok (db, ORecv (RForward {| r_dst := 7; r_src := 5; r_rts := false; r_payload := idata 100 |})) /\
      icpt_step IFull ic db (IRecv (Bare (idata 200))) = Ok (db, ORecv (RForward {| r_dst := 1; r_src := 5; r_rts := false; r_payload := idata 200 |}))
  | Err _ => False
  end /\ peer ic ih 100 = Some 7 /\ decode (idata 100) = Ok (NData 300 100 None None 1 0 1 1 [7; 8; 9]).
Proof.
  split; [apply ic_ok|]. split; [cbn [clean ih]; repeat split; intros d s _ [(r & dt & X)|(r & X)]; vm_compute in X; discriminate|]. vm_compute. auto.
Qed.
Example icpt_routed_ex : goal ic [86; 65; 88] [80; 68; 80] = Some 7 /\ goal ic [86; 65; 88] [86; 65; 88] = None /\ goal ic [88] [] = None /\
  icpt_step IFull ic [] (IRecv (Routed [88] [80; 68; 80] (enc (NCI false 100 0 2 576 [1])))) = Ok ([], ORecv (RReply (Some (Routed [80; 68; 80] [88] (enc (NDC 100 0 39)))))).
Proof. vm_compute. auto. Qed.
Example icpt_no_spoofing_ex : icpt_step IFull ic [] (IRecv (Routed [86; 65; 88] [86; 65; 88] (enc (NCI false 100 0 2 576 [1])))) = Ok ([], ORecv (RReply (Some (Routed [86; 65; 88] [86; 65; 88] (enc (NDC 100 0 39)))))) /\
  exists q, icpt_step IFull ic [] (IRecv (Routed [86; 65; 88] [] (enc (NCI false 100 0 2 576 [1])))) = Ok ([(100, 7)], ORecv (RForward q)).
Proof. split; [vm_compute; reflexivity|]. eexists. vm_compute. reflexivity. Qed.

(** * What does not hold *)
(** VAX disconnects another connection of its own with PDP, using at its end
    the number 100: PDP's link 100 loses its peer, and its data go to this
    node instead of VAX. *)
Theorem icpt_crosstalk_refuted :
  let bye := ISend {| r_dst := 5; r_src := 7; r_rts := false; r_payload := enc (NDI 400 100 0 []) |} in
  peer ic (ih ++ [bye]) 100 = Some 7 /\
  match icpt_run IFull ic [] (ih ++ [bye]) with
  | Ok (db, _) => icpt_step IFull ic db (IRecv (Bare (idata 100))) = Ok (db, ORecv (RForward {| r_dst := 1; r_src := 5; r_rts := false; r_payload := idata 100 |}))
  | Err _ => False
  end.
Proof. vm_compute. auto. Qed.
Print Assumptions icpt_crosstalk_refuted.

(** One packet stops the node: a packet returned to sender, a connect initiate
    from a node that is not in the database, a connect acknowledgment with an
    unknown destination. *)
Theorem icpt_crash_refuted :
  icpt_step IFull ic [] (ISend {| r_dst := 5; r_src := 7; r_rts := true; r_payload := enc (NCI false 100 0 2 576 [1]) |}) = Err EAttr /\
  icpt_step IFull ic [] (ISend {| r_dst := 5; r_src := 9; r_rts := false; r_payload := enc (NCI false 100 0 2 576 [1]) |}) = Err EKey /\
  icpt_step IFull ic [] (IRecv (Routed [88] [] (enc (NAckConn 100)))) = Err EAttr /\
  icpt_step IFull ic [] (IRecv (Routed [88] [] [])) = Err EAttr.
Proof. vm_compute. auto. Qed.
Print Assumptions icpt_crash_refuted.

(** A Phase II router does not relay: the packets that the intercept service
    addresses to another node are given to this node's own NSP. *)
Theorem icpt_p2_refuted : exists q, icpt_step IFull ic [] (IRecv (Routed [86; 65; 88] [] (enc (NCI false 100 0 2 576 [1])))) = Ok ([(100, 7)], ORecv (RForward q)) /\ r_dst q = 7 /\ p2_dispatch q = ToNsp.
Proof. eexists. vm_compute. auto. Qed.
Print Assumptions icpt_p2_refuted.
