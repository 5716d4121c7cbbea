(** C61: the asyncio API client gives each answer to its request and each
    message to its connection. *)
From Verif Require Import Base Dict ConnModel.

(** *** What a history says, most recent step first *)
Definition hist := list (cop * list cout).
Definition opn (h : Z) (cur : option Z) (x : cout) : option Z :=
  match x with
  | OMade c h' => if h' =? h then Some c else cur
  | OShut c => match cur with Some c' => if c =? c' then None else cur | None => None end
  | _ => cur
  end.
(** The connection that has handle [h]. *)
Fixpoint open (H : hist) (h : Z) : option Z :=
  match H with [] => None | (_, o) :: H' => fold_left (opn h) o (open H' h) end.
Definition isdead (x : cout) : bool := match x with ODead => true | _ => false end.
(** The receiver has failed. *)
Definition dead (H : hist) : bool := existsb (fun p => existsb isdead (snd p)) H.
(** Whether request [t] waits for its answer, or did when it was cancelled. *)
Fixpoint waits (H : hist) (t : Z) : option fut :=
  match H with
  | [] => None
  | (e, o) :: H' =>
      match e with
      | Exch => if existsb (fun x => match x with OReq t' => t' =? t | _ => false end) o then Some Pending else waits H' t
      | Cancel t' => if t' =? t then match waits H' t with Some _ => Some Cancelled | None => None end else waits H' t
      | Line m => match m_tag m with Some t' => if t' =? t then None else waits H' t | None => waits H' t end
      | _ => waits H' t
      end
  end.
Definition isopen (H : hist) (h c : Z) : bool := match open H h with Some c' => c' =? c | None => false end.
(** The messages for connection [c]: lines with its handle and no tag. *)
Fixpoint inbox (H : hist) (c : Z) : list msg :=
  match H with
  | [] => []
  | (e, o) :: H' =>
      inbox H' c ++
      match e with
      | Line m => match m_h m, m_tag m with
                  | Some h, None => if negb (h =? 0) && isopen H h c && negb (dead H) then [m] else []
                  | _, _ => []
                  end
      | _ => []
      end
  end.
Definition got1 (c : Z) (x : cout) : list msg := match x with OGot c' m => if c' =? c then [m] else [] | _ => [] end.
(** What recv on connection [c] has returned. *)
Fixpoint got (H : hist) (c : Z) : list msg :=
  match H with [] => [] | (_, o) :: H' => got H' c ++ flat_map (got1 c) o end.
(** The incoming connections for listener [l]. *)
Definition mades (o : list cout) : list Z := flat_map (fun x => match x with OMade c _ => [c] | _ => [] end) o.
Fixpoint incoming (H : hist) (l : Z) : list Z :=
  match H with
  | [] => []
  | (e, o) :: H' =>
      incoming H' l ++
      match e with
      | Line m => match m_ty m, m_lh m with
                  | TConnect, Some b => if isopen H b l then mades o else []
                  | _, _ => []
                  end
      | _ => []
      end
  end.
Fixpoint heard (H : hist) (l : Z) : list Z :=
  match H with [] => [] | (_, o) :: H' => heard H' l ++ flat_map (fun x => match x with ONew l' c => if l' =? l then [c] else [] | _ => [] end) o end.
(** The connections a pipe connector was started for. *)
Fixpoint pincoming (H : hist) : list Z :=
  match H with
  | [] => []
  | (e, o) :: H' => pincoming H' ++ match e with Line m => match m_ty m, m_lh m with TConnect, None => mades o | _, _ => [] end | _ => [] end
  end.
Fixpoint pheard (H : hist) : list Z :=
  match H with [] => [] | (_, o) :: H' => pheard H' ++ flat_map (fun x => match x with ONewP c => [c] | _ => [] end) o end.
(** A message that cannot belong to any connection. *)
Definition opening (t : mtype) : bool := match t with TConnect | TConnecting | TBind => true | _ => false end.
Definition stray (H : hist) (m : msg) : Prop :=
  exists h, m_h m = Some h /\ h <> 0 /\ open H h = None /\ opening (m_ty m) = false.

(** *** The invariant *)
Record CI (pipe : bool) (H : hist) (s : cst) : Prop := {
  ci_alive : alive s = negb (dead H);
  ci_conns : forall h, dget Z.eqb (conns s) h = open H h;
  ci_objs : forall c, (exists o, dget Z.eqb (objs s) c = Some o) <-> 0 <= c < made s;
  ci_obj : forall c o, dget Z.eqb (objs s) c = Some o ->
    inbox H c = got H c ++ c_q o /\ incoming H c = heard H c ++ c_lq o /\ (c_closed o = false <-> open H (c_h o) = Some c) /\ (forall h, open H h = Some c -> h = c_h o);
  ci_none : forall c, c < 0 \/ made s <= c -> inbox H c = [] /\ got H c = [] /\ incoming H c = [] /\ heard H c = [];
  ci_made : 0 <= made s;
  ci_range : forall h c, open H h = Some c -> 0 <= c < made s;
  ci_exs : alive s = true -> forall t, dget Z.eqb (exs s) t = waits H t;
  ci_tag : forall t, tag s < t -> waits H t = None;
  ci_pipe : if pipe then pincoming H = pheard H ++ lq s else lq s = [] /\ pheard H = []
}.
Lemma ci_init : forall pipe, CI pipe [] cinit.
Proof.
  intros pipe. constructor; try reflexivity; cbn [cinit conns objs made exs tag lq alive dget open inbox got incoming heard]; auto.
  - intros c. split; [intros (o & X); discriminate X|lia].
  - intros c o X. discriminate X.
  - intros h c X. discriminate X.
  - destruct pipe; auto.
Qed.
Lemma open_out : forall H e o h, open ((e, o) :: H) h = fold_left (opn h) o (open H h).
Proof. reflexivity. Qed.
Lemma dead_out : forall H e o, dead ((e, o) :: H) = existsb isdead o || dead H.
Proof. reflexivity. Qed.
(** Closing connection [c] in a state that agrees with the history [H], whose
    last step is still in progress with outputs [o]. *)
Lemma isopen_iff : forall H h c, isopen H h c = true <-> open H h = Some c.
Proof. intros H h c. unfold isopen. destruct (open H h) as [c'|]; [|split; discriminate]. rewrite Z.eqb_eq. split; congruence. Qed.
Definition quiet (e : cop) : Prop := match e with Line _ => False | _ => True end.
Lemma inbox_quiet : forall H e o c, quiet e -> inbox ((e, o) :: H) c = inbox H c.
Proof. intros H e o c Q. cbn [inbox]. destruct e; try contradiction; apply app_nil_r. Qed.
Lemma incoming_quiet : forall H e o c, quiet e -> incoming ((e, o) :: H) c = incoming H c.
Proof. intros H e o c Q. cbn [incoming]. destruct e; try contradiction; apply app_nil_r. Qed.
Lemma pincoming_quiet : forall H e o, quiet e -> pincoming ((e, o) :: H) = pincoming H.
Proof. intros H e o Q. cbn [pincoming]. destruct e; try contradiction; apply app_nil_r. Qed.

(** A step that shuts nothing and makes nothing. *)
Lemma dget_none : forall pipe H s c, CI pipe H s -> ~ (0 <= c < made s) -> dget Z.eqb (objs s) c = None.
Proof. intros pipe H s c V N. destruct (dget Z.eqb (objs s) c) eqn:E; auto. exfalso. apply N. apply (ci_objs _ _ _ V). eauto. Qed.

(** The connection [c] leaves: what becomes of the handles. *)
Lemma shut_open : forall H c h, fold_left (opn h) [OShut c] (open H h) = if isopen H h c then None else open H h.
Proof. intros H c h. cbn [fold_left opn]. unfold isopen. destruct (open H h) as [c'|]; [|reflexivity]. rewrite Z.eqb_sym. reflexivity. Qed.

Lemma exch_ci : forall pipe H s, CI pipe H s -> CI pipe ((Exch, snd (exch s)) :: H) (fst (exch s)).
Proof.
  intros pipe H s V. unfold exch. cbn [fst snd]. set (t := tag s + 1). destruct V as [V1 V2 V3 V4 V5 V6 V7 V8 V9 V10].
  constructor; cbn [conns objs made exs tag lq alive]; rewrite ?dead_out; cbn [existsb isdead orb]; auto.
  - intros c o E. rewrite inbox_quiet, incoming_quiet by exact I. cbn [got heard flat_map got1]. rewrite !app_nil_r. apply V4. exact E.
  - intros c L. rewrite inbox_quiet, incoming_quiet by exact I. cbn [got heard flat_map got1]. rewrite !app_nil_r. apply V5. exact L.
  - intros A t'. cbn [waits existsb]. rewrite orb_false_r, dget_dset by apply decides_Z. rewrite (Z.eqb_sym t t'). destruct (t' =? t); [reflexivity|]. apply V8. exact A.
  - intros t' L. cbn [waits existsb]. rewrite orb_false_r. destruct (Z.eqb_spec t t'); [lia|]. apply V9. lia.
  - rewrite pincoming_quiet by exact I. cbn [pheard flat_map]. rewrite !app_nil_r. exact V10.
Qed.
Lemma cancel_ci : forall pipe H s t, CI pipe H s -> CI pipe ((Cancel t, snd (cancel s t)) :: H) (fst (cancel s t)).
Proof.
  intros pipe H s t V. destruct V as [V1 V2 V3 V4 V5 V6 V7 V8 V9 V10].
  assert (W : forall t', (tag s < t' -> waits ((Cancel t, []) :: H) t' = None)).
  { intros t' L. cbn [waits]. rewrite (V9 t' L). destruct (t =? t'); reflexivity. }
  assert (G : forall d, (alive s = true -> forall t', dget Z.eqb d t' = waits ((Cancel t, []) :: H) t') ->
     CI pipe ((Cancel t, []) :: H) (set_exs s d)).
  { intros d E. constructor; cbn [set_exs conns objs made exs tag lq alive]; rewrite ?dead_out; cbn [existsb isdead orb]; auto.
    - intros c o E'. rewrite inbox_quiet, incoming_quiet by exact I. cbn [got heard flat_map got1]. rewrite !app_nil_r. apply V4. exact E'.
    - intros c L. rewrite inbox_quiet, incoming_quiet by exact I. cbn [got heard flat_map got1]. rewrite !app_nil_r. apply V5. exact L.
    - rewrite pincoming_quiet by exact I. cbn [pheard flat_map]. rewrite !app_nil_r. exact V10. }
  assert (Same : set_exs s (exs s) = s) by (destruct s; reflexivity).
  unfold cancel. destruct (dget Z.eqb (exs s) t) as [[|]|] eqn:E; cbn [fst snd]; [apply G|rewrite <- Same; apply G|rewrite <- Same; apply G]; intros A t'; cbn [waits].
  - rewrite dget_dset by apply decides_Z. rewrite (Z.eqb_sym t t'). destruct (Z.eqb_spec t' t) as [->|]; [|apply V8; auto]. rewrite <- V8, E by auto. reflexivity.
  - destruct (Z.eqb_spec t t') as [<-|]; [|apply V8; auto]. rewrite <- V8, E by auto. reflexivity.
  - destruct (Z.eqb_spec t t') as [<-|]; [|apply V8; auto]. rewrite <- V8, E by auto. reflexivity.
Qed.

(** recv, send and listen touch one connection: its queues may lose their head
    and it may be shut. *)
Lemma touch_ci : forall pipe H s c b e o q l shut,
  CI pipe H s -> dget Z.eqb (objs s) c = Some b -> quiet e -> (forall t, e <> Cancel t) -> e <> Exch -> 
  (shut = true -> c_closed b = false) ->
  existsb isdead o = false -> (forall h, fold_left (opn h) o (open H h) = if shut && isopen H h c then None else open H h) ->
  (forall c', flat_map (got1 c') o ++ (if c' =? c then q else []) = if c' =? c then c_q b else []) ->
  (forall c', flat_map (fun x => match x with ONew l' n => if l' =? c' then [n] else [] | _ => [] end) o ++ (if c' =? c then l else []) = if c' =? c then c_lq b else []) ->
  flat_map (fun x => match x with ONewP n => [n] | _ => [] end) o = [] ->
  CI pipe ((e, o) :: H) (set_conns (set_obj s c {| c_h := c_h b; c_q := q; c_lq := l; c_closed := c_closed b || shut |}) (if shut then ddel Z.eqb (conns s) (c_h b) else conns s)).
Proof.
  intros pipe H s c b e o q l shut V E Q NC NE Sh D Op Gt Hd Pp. pose proof (proj1 (ci_objs _ _ _ V c) (ex_intro _ b E)) as Rc.
  destruct V as [V1 V2 V3 V4 V5 V6 V7 V8 V9 V10]. destruct (V4 c b E) as (B1 & B2 & B3 & B4).
  assert (Wt : forall t, waits ((e, o) :: H) t = waits H t) by (intros t; cbn [waits]; destruct e; try contradiction; try congruence; try reflexivity; exfalso; eapply NC; reflexivity).
  assert (Ob : forall h, open ((e, o) :: H) h = if shut && isopen H h c then None else open H h) by (intros h; apply Op).
  constructor; cbn [set_conns set_obj conns objs made exs tag lq alive]; auto.
  - rewrite dead_out, D. exact V1.
  - intros h. rewrite Ob. destruct shut; cbn [andb]; [|apply V2]. specialize (Sh eq_refl). apply B3 in Sh. destruct (isopen H h c) eqn:Io.
    + apply isopen_iff in Io. rewrite (B4 h Io). apply dget_ddel_same.
    + rewrite dget_ddel_other; [apply V2|apply decides_Z|]. intros ->. apply isopen_iff in Sh. congruence.
  - intros c'. rewrite dget_dset by apply decides_Z. destruct (Z.eqb_spec c' c) as [->|]; [|apply V3]. split; [intros _; exact Rc|eauto].
  - intros c' o' E'. rewrite dget_dset in E' by apply decides_Z. rewrite inbox_quiet, incoming_quiet by exact Q. cbn [got heard].
    specialize (Gt c'). specialize (Hd c'). destruct (Z.eqb_spec c' c) as [Ec|Nc]; [subst c'|].
    + injection E' as <-. cbn [c_q c_lq c_closed c_h]. rewrite <- !app_assoc, Gt, Hd. split; [exact B1|]. split; [exact B2|]. rewrite !Ob. split.
      * destruct shut; cbn [andb orb]; [rewrite orb_true_r|rewrite orb_false_r; exact B3]. split; [discriminate|].
        destruct (isopen H (c_h b) c) eqn:Io; [discriminate|]. intros X. apply isopen_iff in X. congruence.
      * intros h. rewrite Ob. destruct (shut && isopen H h c); [discriminate|apply B4].
    + rewrite app_nil_r in Gt, Hd. rewrite Gt, Hd, !app_nil_r. destruct (V4 c' o' E') as (A1 & A2 & A3 & A4). split; [exact A1|]. split; [exact A2|]. rewrite !Ob. split.
      * rewrite A3. destruct (shut && isopen H (c_h o') c) eqn:X; [|reflexivity]. apply andb_true_iff in X. destruct X as (_ & X). apply isopen_iff in X. rewrite X. split; congruence.
      * intros h. rewrite Ob. destruct (shut && isopen H h c); [discriminate|apply A4].
  - intros c' L. rewrite inbox_quiet, incoming_quiet by exact Q. cbn [got heard]. specialize (Gt c'). specialize (Hd c'). destruct (Z.eqb_spec c' c) as [Ec|Nc]; [lia|].
    rewrite app_nil_r in Gt, Hd. rewrite Gt, Hd, !app_nil_r. apply V5. exact L.
  - intros h c'. rewrite Ob. destruct (shut && isopen H h c); [discriminate|apply V7].
  - intros A t. rewrite Wt. apply V8. exact A.
  - intros t L. rewrite Wt. apply V9. exact L.
  - rewrite pincoming_quiet by exact Q. cbn [pheard]. rewrite Pp, app_nil_r. exact V10.
Qed.
Lemma dset_same : forall V (d : dict Z V) k v, dget Z.eqb d k = Some v -> dset Z.eqb d k v = d.
Proof.
  induction d as [|[k' v'] d IH]; intros k v E; cbn [dget] in E; [discriminate E|]. cbn [dset]. destruct (k =? k'); [injection E as ->; reflexivity|]. f_equal. apply IH. exact E.
Qed.
Lemma dset_twice : forall V (d : dict Z V) k v w, dset Z.eqb (dset Z.eqb d k v) k w = dset Z.eqb d k w.
Proof.
  induction d as [|[k' v'] d IH]; intros k v w; cbn [dset]; [rewrite Z.eqb_refl; reflexivity|]. destruct (k =? k') eqn:E; cbn [dset]; rewrite E; [reflexivity|]. f_equal. apply IH.
Qed.
Lemma obj_eta : forall s c b, dget Z.eqb (objs s) c = Some b -> set_conns (set_obj s c {| c_h := c_h b; c_q := c_q b; c_lq := c_lq b; c_closed := c_closed b || false |}) (conns s) = s.
Proof.
  intros s c b E. rewrite orb_false_r. destruct b as [h q l k]. cbn [c_h c_q c_lq c_closed]. unfold set_conns, set_obj. cbn [conns objs made exs tag lq alive].
  rewrite dset_same by exact E. destruct s. reflexivity.
Qed.
Lemma conns_eta : forall s, set_conns s (conns s) = s.
Proof. intros s. destruct s. reflexivity. Qed.
Lemma set_obj_conns : forall s c o, conns (set_obj s c o) = conns s.
Proof. reflexivity. Qed.

(** A step without effect on the state. *)
Lemma idle_ci : forall pipe H s e o, CI pipe H s -> quiet e -> (forall t, e <> Cancel t) -> e <> Exch -> o = [] \/ o = [OClosed] \/ (exists c k, o = [OSent c k]) -> CI pipe ((e, o) :: H) s.
Proof.
  intros pipe H s e o V Q NC NE O. destruct V as [V1 V2 V3 V4 V5 V6 V7 V8 V9 V10].
  assert (Wt : forall t, waits ((e, o) :: H) t = waits H t) by (intros t; cbn [waits]; destruct e; try contradiction; try congruence; try reflexivity; exfalso; eapply NC; reflexivity).
  assert (Op : forall h, open ((e, o) :: H) h = open H h) by (intros h; rewrite open_out; destruct O as [->|[->|(c & k & ->)]]; reflexivity).
  assert (Gt : forall c, got ((e, o) :: H) c = got H c) by (intros c; cbn [got]; destruct O as [->|[->|(c' & k & ->)]]; cbn [flat_map got1]; apply app_nil_r).
  assert (Hd : forall c, heard ((e, o) :: H) c = heard H c) by (intros c; cbn [heard]; destruct O as [->|[->|(c' & k & ->)]]; cbn [flat_map]; apply app_nil_r).
  assert (Ph : pheard ((e, o) :: H) = pheard H) by (cbn [pheard]; destruct O as [->|[->|(c' & k & ->)]]; cbn [flat_map]; apply app_nil_r).
  constructor; auto.
  - rewrite dead_out. destruct O as [->|[->|(c & k & ->)]]; exact V1.
  - intros h. rewrite Op. apply V2.
  - intros c b E. rewrite inbox_quiet, incoming_quiet, Gt, Hd by exact Q. destruct (V4 c b E) as (A & B & C & D). rewrite Op. repeat split; auto; try apply C. intros h. rewrite Op. apply D.
  - intros c L. rewrite inbox_quiet, incoming_quiet, Gt, Hd by exact Q. apply V5. exact L.
  - intros h c. rewrite Op. apply V7.
  - intros A t. rewrite Wt. apply V8. exact A.
  - intros t L. rewrite Wt. apply V9. exact L.
  - rewrite pincoming_quiet, Ph by exact Q. exact V10.
Qed.
Lemma recv_ci : forall pipe H s c, CI pipe H s -> CI pipe ((Recv c, snd (recv s c)) :: H) (fst (recv s c)).
Proof.
  intros pipe H s c V. assert (Idle : forall o, o = [] \/ o = [OClosed] \/ (exists c k, o = [OSent c k]) -> CI pipe ((Recv c, o) :: H) s) by (intros o O; apply idle_ci; auto; [exact I|discriminate|discriminate]).
  unfold recv. destruct (dget Z.eqb (objs s) c) as [b|] eqn:E; [|apply Idle; auto]. destruct (c_closed b) eqn:Cl; [apply Idle; auto|].
  destruct (c_q b) as [|m q] eqn:Eq; [apply Idle; auto|]. cbv zeta.
  assert (Keep : CI pipe ((Recv c, [OGot c m]) :: H) (set_obj s c (withq b q))).
  { pose proof (touch_ci pipe H s c b (Recv c) [OGot c m] q (c_lq b) false V E) as T. cbn iota in T. rewrite <- (conns_eta (set_obj s c (withq b q))), set_obj_conns. unfold withq.
    replace (c_closed b) with (c_closed b || false) by apply orb_false_r. apply T; try (exact I); try discriminate; try reflexivity.
    - intros c'. cbn [flat_map got1 app]. rewrite (Z.eqb_sym c c'). destruct (c' =? c); [rewrite Eq; reflexivity|reflexivity]. }
  destruct (m_err m); [exact Keep|]. destruct (ends (m_ty m)); [|exact Keep].
  unfold close. cbn [set_obj objs]. rewrite dget_dset_same by apply decides_Z. cbn [withq c_closed c_h c_q c_lq]. rewrite Cl. cbn [fst snd].
  pose proof (touch_ci pipe H s c b (Recv c) [OGot c m; OShut c] q (c_lq b) true V E) as T. cbn iota in T. rewrite orb_true_r in T.
  match goal with |- CI _ _ ?x => match type of T with context [CI _ _ ?y] => replace x with y end end.
  - apply T; try (exact I); try discriminate; try reflexivity; auto.
    + intros h. cbn [fold_left]. change (opn h (open H h) (OGot c m)) with (open H h). apply shut_open.
    + intros c'. cbn [flat_map got1 app]. rewrite (Z.eqb_sym c c'). destruct (c' =? c); [rewrite Eq; reflexivity|reflexivity].
  - unfold set_conns, set_obj. cbn [conns objs made exs tag lq alive]. rewrite dset_twice. reflexivity.
Qed.
Lemma send_ci : forall pipe H s c k, CI pipe H s -> CI pipe ((Send c k, snd (send s c k)) :: H) (fst (send s c k)).
Proof.
  intros pipe H s c k V. assert (Idle : forall o, o = [] \/ o = [OClosed] \/ (exists c k, o = [OSent c k]) -> CI pipe ((Send c k, o) :: H) s) by (intros o O; apply idle_ci; auto; [exact I|discriminate|discriminate]).
  unfold send. destruct (dget Z.eqb (objs s) c) as [b|] eqn:E; [|apply Idle; auto]. destruct (c_closed b) eqn:Cl; [apply Idle; auto|].
  destruct k; [apply Idle; right; right; exists c, SKeep; reflexivity|]. unfold close. cbn [fst snd].
  rewrite E, Cl. cbn [fst snd].
  pose proof (touch_ci pipe H s c b (Send c SEnd) [OSent c SEnd; OShut c] (c_q b) (c_lq b) true V E) as T. cbn iota in T. rewrite orb_true_r in T. apply T; try (exact I); try discriminate; try reflexivity; auto.
  intros h. cbn [fold_left]. change (opn h (open H h) (OSent c SEnd)) with (open H h). apply shut_open.
Qed.
Lemma listen_ci : forall pipe H s c, CI pipe H s -> CI pipe ((Listen c, snd (listen s c)) :: H) (fst (listen s c)).
Proof.
  intros pipe H s c V. assert (Idle : forall o, o = [] \/ o = [OClosed] \/ (exists c k, o = [OSent c k]) -> CI pipe ((Listen c, o) :: H) s) by (intros o O; apply idle_ci; auto; [exact I|discriminate|discriminate]).
  unfold listen. destruct (dget Z.eqb (objs s) c) as [b|] eqn:E; [|apply Idle; auto]. destruct (c_lq b) as [|n q] eqn:El; [apply Idle; auto|]. cbn [fst snd].
  pose proof (touch_ci pipe H s c b (Listen c) [ONew c n] (c_q b) q false V E) as T. cbn iota in T. rewrite <- (conns_eta (set_obj s c (withlq b q))), set_obj_conns. unfold withlq.
  replace (c_closed b) with (c_closed b || false) by apply orb_false_r. apply T; try (exact I); try discriminate; try reflexivity.
  intros c'. cbn [flat_map app]. rewrite (Z.eqb_sym c c'). destruct (c' =? c); [rewrite El; reflexivity|reflexivity].
Qed.
Lemma plisten_ci : forall pipe H s, CI pipe H s -> CI pipe ((PListen, snd (plisten s)) :: H) (fst (plisten s)).
Proof.
  intros pipe H s V. unfold plisten. destruct (lq s) as [|c q] eqn:El; cbn [fst snd]; [apply idle_ci; auto; [exact I|discriminate|discriminate]|].
  destruct V as [V1 V2 V3 V4 V5 V6 V7 V8 V9 V10]. constructor; cbn [set_lq conns objs made exs tag lq alive]; auto.
  - intros c' o E. rewrite inbox_quiet, incoming_quiet by exact I. cbn [got heard flat_map got1]. rewrite !app_nil_r. apply V4. exact E.
  - intros c' L. rewrite inbox_quiet, incoming_quiet by exact I. cbn [got heard flat_map got1]. rewrite !app_nil_r. apply V5. exact L.
  - rewrite pincoming_quiet by exact I. cbn [pheard flat_map]. rewrite El in V10. destruct pipe; [rewrite <- app_assoc; exact V10|]. destruct V10 as (X & _). discriminate X.
Qed.

(** *** A line from PyDECnet *)
(** What holds between parse and the rest of dispatch. *)
Record PI (pipe : bool) (H : hist) (s0 : cst) (m : msg) (o : list cout) (s : cst) (rc : option Z) : Prop := {
  pi_alive : alive s = alive s0;
  pi_exs : exs s = exs s0;
  pi_tag : tag s = tag s0;
  pi_out : forall x, In x o -> match x with OMade _ _ | OShut _ | OSent _ _ => True | _ => False end;
  pi_conns : forall h, dget Z.eqb (conns s) h = open ((Line m, o) :: H) h;
  pi_objs : forall c, (exists b, dget Z.eqb (objs s) c = Some b) <-> 0 <= c < made s;
  pi_obj : forall c b, dget Z.eqb (objs s) c = Some b ->
    inbox H c = got H c ++ c_q b /\ incoming ((Line m, o) :: H) c = heard H c ++ c_lq b /\
    (c_closed b = false <-> open ((Line m, o) :: H) (c_h b) = Some c) /\ (forall h, open ((Line m, o) :: H) h = Some c -> h = c_h b);
  pi_none : forall c, c < 0 \/ made s <= c -> inbox H c = [] /\ got H c = [] /\ incoming ((Line m, o) :: H) c = [] /\ heard H c = [];
  pi_made : 0 <= made s;
  pi_range : forall h c, open ((Line m, o) :: H) h = Some c -> 0 <= c < made s;
  pi_pipe : if pipe then pincoming ((Line m, o) :: H) = pheard H ++ lq s else lq s = [] /\ pheard H = [];
  pi_rc : rc = match m_h m with Some h => if h =? 0 then None else open ((Line m, o) :: H) h | None => None end
}.
Lemma pi_same : forall pipe H s m rc, CI pipe H s -> rc = match m_h m with Some h => if h =? 0 then None else open H h | None => None end -> PI pipe H s m [] s rc.
Proof.
  intros pipe H s m rc [V1 V2 V3 V4 V5 V6 V7 V8 V9 V10] R.
  assert (Inc : forall c, incoming ((Line m, []) :: H) c = incoming H c). { intros c. cbn [incoming mades flat_map]. destruct (m_ty m), (m_lh m); try (destruct (isopen _ _ _)); apply app_nil_r. }
  assert (Pin : pincoming ((Line m, []) :: H) = pincoming H). { cbn [pincoming mades flat_map]. destruct (m_ty m), (m_lh m); apply app_nil_r. }
  constructor; auto.
  - intros x [].
  - intros c b E. rewrite Inc. apply V4. exact E.
  - intros c L. rewrite Inc. apply V5. exact L.
  - rewrite Pin. exact V10.
Qed.

Definition joins (H1 : hist) (m : msg) (c l : Z) : list Z :=
  match m_ty m, m_lh m with TConnect, Some b => if isopen H1 b l then [c] else [] | _, _ => [] end.
Lemma new_pi : forall pipe H s m h o s' rc (cl : bool),
  CI pipe H s -> m_h m = Some h -> h <> 0 -> open H h = None ->
  alive s' = alive s -> exs s' = exs s -> tag s' = tag s -> made s' = made s + 1 ->
  o = (if cl then [OMade (made s) h; OSent (made s) SEnd; OShut (made s)] else [OMade (made s) h]) ->
  (forall h', dget Z.eqb (conns s') h' = if h' =? h then (if cl then None else Some (made s)) else open H h') ->
  (forall c', dget Z.eqb (objs s') c' = if c' =? made s then Some {| c_h := h; c_q := []; c_lq := joins ((Line m, o) :: H) m (made s) c'; c_closed := cl |}
                                        else match dget Z.eqb (objs s) c' with Some b => Some (withlq b (c_lq b ++ joins ((Line m, o) :: H) m (made s) c')) | None => None end) ->
  lq s' = lq s ++ (if pipe then match m_ty m, m_lh m with TConnect, None => [made s] | _, _ => [] end else []) ->
  rc = (if cl then None else Some (made s)) ->
  PI pipe H s m o s' rc.
Proof.
  intros pipe H s m h o s' rc cl [V1 V2 V3 V4 V5 V6 V7 V8 V9 V10] Hh H0 Ho E1 E2 E3 E4 Eo Ec Eb El Er.
  assert (Op : forall h', open ((Line m, o) :: H) h' = if h' =? h then (if cl then None else Some (made s)) else open H h').
  { intros h'. rewrite open_out, Eo. destruct cl; cbn [fold_left opn]; rewrite (Z.eqb_sym h h'); destruct (Z.eqb_spec h' h) as [->|]; rewrite ?Z.eqb_refl; try reflexivity.
    destruct (open H h') as [c|] eqn:X; [|reflexivity]. apply V7 in X. destruct (Z.eqb_spec (made s) c); [lia|reflexivity]. }
  assert (Md : mades o = [made s]) by (rewrite Eo; destruct cl; reflexivity).
  assert (Inc : forall c, incoming ((Line m, o) :: H) c = incoming H c ++ joins ((Line m, o) :: H) m (made s) c).
  { intros c. cbn [incoming]. f_equal. unfold joins. rewrite Md. reflexivity. }
  constructor; auto.
  - rewrite Eo. destruct cl; cbn [In]; intros x X; decompose [or] X; subst; try exact I; contradiction.
  - intros h'. rewrite Op. apply Ec.
  - intros c. rewrite Eb, E4. destruct (Z.eqb_spec c (made s)) as [->|N]; [split; [lia|eauto]|]. split.
    + intros (b & X). destruct (dget Z.eqb (objs s) c) eqn:Y; [|discriminate X]. assert (0 <= c < made s) by (apply V3; eauto). lia.
    + intros R. destruct (proj2 (V3 c) ltac:(lia)) as (b & Y). rewrite Y. eauto.
  - intros c b. rewrite Eb, Inc. destruct (Z.eqb_spec c (made s)) as [->|N].
    + intros X. injection X as <-. cbn [c_q c_lq c_closed c_h]. destruct (V5 (made s) ltac:(lia)) as (A1 & A2 & A3 & A4). rewrite A1, A2, A3, A4. split; [reflexivity|]. split; [reflexivity|].
      rewrite !Op, Z.eqb_refl. split; [destruct cl; split; congruence|]. intros h'. rewrite Op. destruct (Z.eqb_spec h' h); [auto|]. intros X. apply V7 in X. lia.
    + destruct (dget Z.eqb (objs s) c) as [b0|] eqn:Y; [|discriminate]. intros X. injection X as <-. unfold withlq. cbn [c_q c_lq c_closed c_h].
      destruct (V4 c b0 Y) as (A1 & A2 & A3 & A4). split; [exact A1|]. split; [rewrite A2, app_assoc; reflexivity|]. rewrite Op. split.
      * destruct (Z.eqb_spec (c_h b0) h) as [Eh|]; [|exact A3]. rewrite A3, Eh, Ho. split; [discriminate|]. destruct cl; [discriminate|]. intros X. injection X as X. congruence.
      * intros h'. rewrite Op. destruct (Z.eqb_spec h' h); [|apply A4]. destruct cl; [discriminate|]. intros X. injection X as X. congruence.
  - intros c L. rewrite E4 in L. destruct (V5 c ltac:(lia)) as (A1 & A2 & A3 & A4). rewrite Inc, A1, A2, A3, A4. split; [reflexivity|]. split; [reflexivity|]. split; [|reflexivity].
    cbn [app]. unfold joins. destruct (m_ty m), (m_lh m) as [b|]; try reflexivity. destruct (isopen _ b c) eqn:X; [|reflexivity]. exfalso. apply isopen_iff in X. rewrite Op in X.
    destruct (b =? h); [destruct cl; [discriminate X|injection X as X; lia]|]. apply V7 in X. lia.
  - rewrite E4. lia.
  - intros h' c. rewrite Op, E4. destruct (h' =? h); [destruct cl; [discriminate|]; intros X; injection X as <-; lia|]. intros X. apply V7 in X. lia.
  - rewrite El. destruct pipe; [|rewrite app_nil_r; exact V10]. cbn [pincoming]. rewrite V10, <- app_assoc. do 2 f_equal. rewrite Md. destruct (m_ty m), (m_lh m); reflexivity.
  - rewrite Hh, Op, Z.eqb_refl. destruct (Z.eqb_spec h 0); [contradiction|exact Er].
Qed.
Lemma parse_pi : forall pipe H s m s' rc o, CI pipe H s -> parse pipe s m = Some (s', rc, o) -> PI pipe H s m o s' rc.
Proof.
  intros pipe H s m s' rc o V E. unfold parse in E. pose proof (ci_conns _ _ _ V) as V2. pose proof (ci_range _ _ _ V) as V7. pose proof (ci_objs _ _ _ V) as V3. pose proof (ci_none _ _ _ V) as V5.
  pose proof (dget_none pipe H s (made s) V ltac:(lia)) as Nn.
  destruct (m_h m) as [h|] eqn:Hh; [|injection E as <- <- <-; apply pi_same; [exact V|rewrite Hh; reflexivity]].
  destruct (h =? 0) eqn:H0; [injection E as <- <- <-; apply pi_same; [exact V|rewrite Hh, H0; reflexivity]|].
  destruct (dget Z.eqb (conns s) h) as [c|] eqn:Ec; [injection E as <- <- <-; apply pi_same; [exact V|rewrite Hh, H0, <- V2, Ec; reflexivity]|].
  apply Z.eqb_neq in H0. assert (Ho : open H h = None) by (rewrite <- V2; exact Ec).
  assert (Plain : forall s2, (s2 = new_conn s h /\ (match m_ty m, m_lh m with TConnect, None => pipe | _, _ => false end = false) \/
                              s2 = set_lq (new_conn s h) (lq s ++ [made s]) /\ pipe = true /\ m_ty m = TConnect /\ m_lh m = None) ->
     (m_ty m <> TConnect \/ m_lh m = None) -> PI pipe H s m [OMade (made s) h] s2 (Some (made s))).
  { intros s2 D J. assert (J0 : forall x l, joins x m (made s) l = []). { intros x l. unfold joins. destruct J as [J| ->]; [destruct (m_ty m); congruence|destruct (m_ty m); reflexivity]. }
    apply new_pi with (h := h) (cl := false); auto; try (destruct D as [(-> & _)|(-> & _)]; reflexivity).
    - intros h'. assert (conns s2 = dset Z.eqb (conns s) h (made s)) as -> by (destruct D as [(-> & _)|(-> & _)]; reflexivity). rewrite dget_dset by apply decides_Z. destruct (h' =? h); [reflexivity|apply V2].
    - intros c'. rewrite J0. assert (objs s2 = objs (new_conn s h)) as -> by (destruct D as [(-> & _)|(-> & _)]; reflexivity). cbn [new_conn objs]. rewrite dget_dset by apply decides_Z.
      destruct (c' =? made s); [reflexivity|]. destruct (dget Z.eqb (objs s) c') as [b|]; [|reflexivity]. rewrite app_nil_r. destruct b; reflexivity.
    - destruct D as [(-> & D)|(-> & -> & -> & ->)]; [|reflexivity]. cbn [new_conn lq]. destruct pipe; [destruct (m_ty m), (m_lh m); try discriminate D; rewrite app_nil_r; reflexivity|rewrite app_nil_r; reflexivity]. }
  assert (Ty : m_ty m <> TConnect -> opening (m_ty m) = true -> makeconn pipe s m h = (s', rc, o) -> PI pipe H s m o s' rc).
  { intros T _ X. unfold makeconn in X. cbv zeta in X. destruct (m_ty m) eqn:Et; try congruence; injection X as <- <- <-; apply Plain; auto; left; (split; [reflexivity|]); reflexivity. }
  destruct (m_ty m) eqn:Et; try discriminate E; injection E as E; try (apply Ty; [congruence|reflexivity|exact E]).
  unfold makeconn in E. cbv zeta in E. rewrite Et in E. destruct (m_lh m) as [bh|] eqn:Elh; [|injection E as <- <- <-; apply Plain; [destruct pipe; [right; auto|left; auto]|auto]].
  destruct (dget Z.eqb (conns (new_conn s h)) bh) as [bc|] eqn:Eb.
  - assert (Op1 : forall x, open ((Line m, [OMade (made s) h]) :: H) x = dget Z.eqb (conns (new_conn s h)) x).
    { intros x. rewrite open_out. cbn [fold_left opn new_conn conns]. rewrite dget_dset by apply decides_Z. rewrite (Z.eqb_sym h x). destruct (x =? h); [reflexivity|symmetry; apply V2]. }
    assert (Jb : forall l, joins ((Line m, [OMade (made s) h]) :: H) m (made s) l = if l =? bc then [made s] else []).
    { intros l. unfold joins. rewrite Et, Elh. unfold isopen. rewrite Op1, Eb, Z.eqb_sym. reflexivity. }
    destruct (dget Z.eqb (objs (new_conn s h)) bc) as [b|] eqn:Ebc; injection E as <- <- <-.
    + apply new_pi with (h := h) (cl := false); auto.
      * intros h'. cbn [set_obj new_conn conns]. rewrite dget_dset by apply decides_Z. destruct (h' =? h); [reflexivity|apply V2].
      * intros c'. rewrite Jb. cbn [set_obj objs new_conn]. cbn [new_conn objs] in Ebc. rewrite !dget_dset by apply decides_Z. rewrite dget_dset in Ebc by apply decides_Z.
        destruct (Z.eqb_spec c' bc) as [->|N].
        -- destruct (bc =? made s); [injection Ebc as <-; reflexivity|]. rewrite Ebc. reflexivity.
        -- destruct (c' =? made s); [reflexivity|]. destruct (dget Z.eqb (objs s) c') as [b'|]; [|reflexivity]. rewrite app_nil_r. destruct b'; reflexivity.
      * cbn [set_obj new_conn lq]. rewrite Et, Elh. destruct pipe; rewrite app_nil_r; reflexivity.
    + exfalso. rewrite <- Op1 in Eb. rewrite open_out in Eb. cbn [fold_left opn] in Eb. cbn [new_conn objs] in Ebc. rewrite dget_dset in Ebc by apply decides_Z.
      destruct (Z.eqb_spec bc (made s)) as [->|N]; [discriminate Ebc|]. destruct (h =? bh); [congruence|]. apply V7, V3 in Eb. destruct Eb as (b & Eb). congruence.
  - unfold close in E. cbn [new_conn objs] in E. rewrite dget_dset_same in E by apply decides_Z. cbn [c_closed c_h] in E. injection E as <- <- <-. cbn [new_conn conns] in Eb. rewrite dget_dset in Eb by apply decides_Z.
    apply new_pi with (h := h) (cl := true); auto.
    + intros h'. cbn [set_conns set_obj new_conn conns]. destruct (Z.eqb_spec h' h) as [->|N]; [apply dget_ddel_same|]. rewrite dget_ddel_other by (auto using decides_Z). rewrite dget_dset_other by (auto using decides_Z). apply V2.
    + intros c'. cbn [set_conns set_obj new_conn objs]. rewrite dset_twice, dget_dset by apply decides_Z.
      assert (J0 : forall l, joins ((Line m, [OMade (made s) h; OSent (made s) SEnd; OShut (made s)]) :: H) m (made s) l = []).
      { intros l. unfold joins. rewrite Et, Elh. unfold isopen. rewrite open_out. cbn [fold_left opn]. rewrite (Z.eqb_sym h bh). destruct (bh =? h); [discriminate Eb|]. rewrite <- V2, Eb. reflexivity. }
      rewrite J0. cbn [c_h c_q c_lq app]. destruct (c' =? made s); [reflexivity|]. destruct (dget Z.eqb (objs s) c') as [b'|]; [|reflexivity]. rewrite app_nil_r. destruct b'; reflexivity.
    + cbn [set_conns set_obj new_conn lq]. rewrite Et, Elh. destruct pipe; rewrite app_nil_r; reflexivity.
Qed.
(** What dispatch adds to the outputs of parse. *)
Definition extra (x : list cout) : Prop := x = [] \/ (exists t rc m, x = [ODone t rc m]) \/ x = [ODead].
Lemma flat_none : forall A (f : cout -> list A) o, (forall x, In x o -> match x with OMade _ _ | OShut _ | OSent _ _ => True | _ => False end) ->
  (forall x, match x with OMade _ _ | OShut _ | OSent _ _ => True | _ => False end -> f x = []) -> flat_map f o = [].
Proof. intros A f o. induction o as [|x o IH]; intros P Q; [reflexivity|]. cbn [flat_map]. rewrite Q by (apply P; left; reflexivity). apply IH; [intros y Y; apply P; right; exact Y|exact Q]. Qed.
Lemma line_ci : forall pipe H s m o s1 rc x s2, CI pipe H s -> alive s = true -> PI pipe H s m o s1 rc -> extra x ->
  (forall h, dget Z.eqb (conns s2) h = dget Z.eqb (conns s1) h) -> made s2 = made s1 -> tag s2 = tag s1 -> lq s2 = lq s1 -> alive s2 = negb (existsb isdead x) ->
  (alive s2 = true -> forall t, dget Z.eqb (exs s2) t = waits ((Line m, o ++ x) :: H) t) ->
  (forall c, dget Z.eqb (objs s2) c = match dget Z.eqb (objs s1) c with
     | Some b => Some (withq b (c_q b ++ match m_tag m with None => match rc with Some r => if r =? c then [m] else [] | None => [] end | Some _ => [] end)) | None => None end) ->
  (m_tag m = None -> x = [] \/ rc = None) ->
  CI pipe ((Line m, o ++ x) :: H) s2.
Proof.
  intros pipe H s m o s1 rc x s2 V A P X E1 E2 E3 E4 E5 E6 E7 Xn. destruct P as [P1 P2 P3 P4 P5 P6 P7 P8 P9 P10 P11 P12]. destruct V as [V1 V2 V3 V4 V5 V6 V7 V8 V9 V10].
  assert (Op : forall h, open ((Line m, o ++ x) :: H) h = open ((Line m, o) :: H) h).
  { intros h. rewrite !open_out, fold_left_app. destruct X as [->|[(t & r & n & ->)| ->]]; reflexivity. }
  assert (Nd : existsb isdead o = false). { clear - P4. induction o as [|y o IH]; [reflexivity|]. cbn [existsb]. rewrite IH by (intros z Z; apply P4; right; exact Z). specialize (P4 y (or_introl eq_refl)). destruct y; try contradiction; reflexivity. }
  assert (D0 : dead H = false) by (destruct (dead H); auto; rewrite A in V1; discriminate V1).
  assert (Dd : dead ((Line m, o ++ x) :: H) = existsb isdead x) by (rewrite dead_out, existsb_app, Nd, D0, orb_false_r; reflexivity).
  assert (Md : mades (o ++ x) = mades o). { unfold mades. rewrite flat_map_app. destruct X as [->|[(t & r & n & ->)| ->]]; apply app_nil_r. }
  assert (Inc : forall c, incoming ((Line m, o ++ x) :: H) c = incoming ((Line m, o) :: H) c).
  { intros c. cbn [incoming]. f_equal. rewrite Md. unfold isopen. destruct (m_ty m), (m_lh m); try reflexivity. rewrite Op. reflexivity. }
  assert (Pin : pincoming ((Line m, o ++ x) :: H) = pincoming ((Line m, o) :: H)) by (cbn [pincoming]; rewrite Md; reflexivity).
  assert (Gt : forall c, got ((Line m, o ++ x) :: H) c = got H c).
  { intros c. cbn [got]. rewrite flat_map_app, (flat_none _ _ o P4) by (intros y; destruct y; try contradiction; reflexivity). destruct X as [->|[(t & r & n & ->)| ->]]; apply app_nil_r. }
  assert (Hd : forall c, heard ((Line m, o ++ x) :: H) c = heard H c).
  { intros c. cbn [heard]. rewrite flat_map_app, (flat_none _ _ o P4) by (intros y; destruct y; try contradiction; reflexivity). destruct X as [->|[(t & r & n & ->)| ->]]; apply app_nil_r. }
  assert (Ph : pheard ((Line m, o ++ x) :: H) = pheard H).
  { cbn [pheard]. rewrite flat_map_app, (flat_none _ _ o P4) by (intros y; destruct y; try contradiction; reflexivity). destruct X as [->|[(t & r & n & ->)| ->]]; apply app_nil_r. }
  assert (Inb : forall c, inbox ((Line m, o ++ x) :: H) c = inbox H c ++ match m_tag m with None => match rc with Some r => if r =? c then [m] else [] | None => [] end | Some _ => [] end).
  { intros c. cbn [inbox]. f_equal. rewrite P12. destruct (m_h m) as [h|]; [|destruct (m_tag m); reflexivity]. destruct (m_tag m) as [t|]; [reflexivity|]. rewrite Dd. unfold isopen. rewrite Op.
    destruct (h =? 0); [reflexivity|]. cbn [negb andb]. destruct (Xn eq_refl) as [->| ->]; [cbn [existsb negb]; rewrite andb_true_r; destruct (open _ h); reflexivity|].
    symmetry in P12. rewrite P12. reflexivity. }
  constructor.
  - rewrite Dd. exact E5.
  - intros h. rewrite E1, Op. apply P5.
  - intros c. rewrite E2, <- P6, E7. destruct (dget Z.eqb (objs s1) c) as [b|]; [split; eauto|]. split; intros (b & Y); discriminate Y.
  - intros c b. rewrite E7. destruct (dget Z.eqb (objs s1) c) as [b1|] eqn:Eb; [|discriminate]. intros Y. injection Y as <-. unfold withq. cbn [c_q c_lq c_closed c_h].
    destruct (P7 c b1 Eb) as (A1 & A2 & A3 & A4). rewrite Inb, Inc, Gt, Hd, A1, A2, Op. split; [symmetry; apply app_assoc|]. split; [reflexivity|]. split; [exact A3|]. intros h. rewrite Op. apply A4.
  - intros c L. rewrite E2 in L. destruct (P8 c L) as (A1 & A2 & A3 & A4). rewrite Inb, Inc, Gt, Hd, A1, A2, A3, A4. split; [|auto]. cbn [app].
    destruct (m_tag m); [reflexivity|]. destruct rc as [r|]; [|reflexivity]. destruct (Z.eqb_spec r c) as [->|]; [|reflexivity]. exfalso. destruct (m_h m) as [h|]; [|discriminate P12]. destruct (h =? 0); [discriminate P12|]. symmetry in P12. apply P10 in P12. lia.
  - rewrite E2. exact P9.
  - intros h c. rewrite Op, E2. apply P10.
  - exact E6.
  - intros t L. rewrite E3, P3 in L. cbn [waits]. rewrite (V9 t L). destruct (m_tag m) as [t'|]; [destruct (t' =? t)|]; reflexivity.
  - rewrite Pin, Ph, E4. exact P11.
Qed.
Lemma parse_stray : forall pipe H s m, CI pipe H s -> (parse pipe s m = None <-> stray H m).
Proof.
  intros pipe H s m V. unfold parse, stray. destruct (m_h m) as [h|]; [|split; [discriminate|intros (h & X & _); discriminate X]].
  destruct (Z.eqb_spec h 0) as [->|N]; [split; [discriminate|intros (h & X & Y & _); injection X as <-; contradiction]|]. rewrite (ci_conns _ _ _ V).
  destruct (open H h) as [c|] eqn:E; [split; [discriminate|intros (h' & X & _ & Y & _); injection X as <-; congruence]|].
  destruct (m_ty m) eqn:T; cbn [opening]; (split; [intros Y; try discriminate Y; exists h; auto|intros (h' & _ & _ & _ & Y); try discriminate Y; reflexivity]).
Qed.
Lemma dispatch_ci : forall pipe H s m, CI pipe H s -> alive s = true -> CI pipe ((Line m, snd (dispatch pipe s m)) :: H) (fst (dispatch pipe s m)).
Proof.
  intros pipe H s m V A. unfold dispatch. destruct (parse pipe s m) as [[[s1 rc] o]|] eqn:E; cbn [fst snd].
  2:{ assert (P : PI pipe H s m [] s (match m_h m with Some h => if h =? 0 then None else open H h | None => None end)) by (apply pi_same; auto).
      apply (parse_stray pipe H s m V) in E. destruct E as (h & Eh & Nh & Eo & _).
      assert (Rn : match m_h m with Some h => if h =? 0 then None else open H h | None => None end = None) by (rewrite Eh, Eo; destruct (h =? 0); reflexivity). rewrite Rn in P.
      change [ODead] with ([] ++ [ODead]). apply (line_ci pipe H s m [] s None [ODead] (die s) V A P); auto; try reflexivity.
      - right. right. reflexivity.
      - discriminate.
      - intros c. cbn [die objs]. destruct (dget Z.eqb (objs s) c) as [b|]; [|reflexivity]. destruct (m_tag m); rewrite app_nil_r; destruct b; reflexivity. }
  pose proof (parse_pi _ _ _ _ _ _ _ V E) as P. pose proof (pi_alive _ _ _ _ _ _ _ P) as Pa. pose proof (pi_exs _ _ _ _ _ _ _ P) as Px. rewrite A in Pa.
  pose proof (ci_exs _ _ _ V A) as V8.
  destruct (m_tag m) as [t|] eqn:Et.
  - assert (Ob : forall c, dget Z.eqb (objs s1) c = match dget Z.eqb (objs s1) c with Some b => Some (withq b (c_q b ++ match m_tag m with None => match rc with Some r => if r =? c then [m] else [] | None => [] end | Some _ => [] end)) | None => None end).
    { intros c. rewrite Et. destruct (dget Z.eqb (objs s1) c) as [b|]; [|reflexivity]. rewrite app_nil_r. destruct b; reflexivity. }
    rewrite Px. destruct (dget Z.eqb (exs s) t) as [[|]|] eqn:Ee; cbn [fst snd].
    + apply (line_ci pipe H s m o s1 rc [ODone t rc m] (set_exs s1 (ddel Z.eqb (exs s) t)) V A P); auto; try reflexivity; try exact Ob; [right; left; eauto| |rewrite Et; discriminate].
      intros _ t'. cbn [set_exs exs waits]. rewrite Et. destruct (Z.eqb_spec t t') as [<-|N]; [apply dget_ddel_same|]. rewrite dget_ddel_other by (auto using decides_Z). apply V8.
    + apply (line_ci pipe H s m o s1 rc [ODead] (die (set_exs s1 (ddel Z.eqb (exs s) t))) V A P); auto; try reflexivity; try exact Ob; [right; right; reflexivity|discriminate|rewrite Et; discriminate].
    + rewrite <- (app_nil_r o). apply (line_ci pipe H s m o s1 rc [] s1 V A P); auto; try reflexivity; try exact Ob; [left; reflexivity|].
      intros _ t'. rewrite Px. cbn [waits]. rewrite Et. destruct (Z.eqb_spec t t') as [<-|N]; [exact Ee|apply V8].
  - assert (Wt : forall t', dget Z.eqb (exs s1) t' = waits ((Line m, o ++ []) :: H) t') by (intros t'; rewrite Px; cbn [waits]; rewrite Et; apply V8).
    destruct rc as [c|].
    + assert (Ex : exists b, dget Z.eqb (objs s1) c = Some b).
      { apply (pi_objs _ _ _ _ _ _ _ P). pose proof (pi_rc _ _ _ _ _ _ _ P) as R. destruct (m_h m) as [h|]; [|discriminate R]. destruct (h =? 0); [discriminate R|]. symmetry in R. apply (pi_range _ _ _ _ _ _ _ P) in R. exact R. }
      destruct Ex as (b & Eb). rewrite Eb. cbn [fst snd]. rewrite <- (app_nil_r o) at 1.
      apply (line_ci pipe H s m o s1 (Some c) [] (set_obj s1 c (withq b (c_q b ++ [m]))) V A P); auto; try reflexivity; [left; reflexivity|].
      intros c'. cbn [set_obj objs]. rewrite dget_dset, Et by apply decides_Z. rewrite (Z.eqb_sym c c'). destruct (Z.eqb_spec c' c) as [->|N]; [rewrite Eb; reflexivity|].
      destruct (dget Z.eqb (objs s1) c') as [b'|]; [|reflexivity]. rewrite app_nil_r. destruct b'; reflexivity.
    + cbn [fst snd]. rewrite <- (app_nil_r o) at 1. apply (line_ci pipe H s m o s1 None [] s1 V A P); auto; try reflexivity; [left; reflexivity|].
      intros c'. rewrite Et. destruct (dget Z.eqb (objs s1) c') as [b'|]; [|reflexivity]. rewrite app_nil_r. destruct b'; reflexivity.
Qed.
Lemma dead_line_ci : forall pipe H s m, CI pipe H s -> alive s = false -> CI pipe ((Line m, []) :: H) s.
Proof.
  intros pipe H s m V A. pose proof V as [V1 V2 V3 V4 V5 V6 V7 V8 V9 V10].
  destruct (pi_same pipe H s m _ V eq_refl) as [P1 P2 P3 P4 P5 P6 P7 P8 P9 P10 P11 P12].
  assert (D : dead ((Line m, []) :: H) = true) by (rewrite dead_out; destruct (dead H); [reflexivity|rewrite A in V1; discriminate V1]).
  assert (Inb : forall c, inbox ((Line m, []) :: H) c = inbox H c).
  { intros c. cbn [inbox]. rewrite D. destruct (m_h m), (m_tag m); rewrite ?andb_false_r; apply app_nil_r. }
  constructor; auto.
  - intros c b E. rewrite Inb. cbn [got heard flat_map]. rewrite !app_nil_r. apply P7. exact E.
  - intros c L. rewrite Inb. cbn [got heard flat_map]. rewrite !app_nil_r. apply P8. exact L.
  - intros X. congruence.
  - intros t L. cbn [waits]. rewrite (V9 t L). destruct (m_tag m) as [t'|]; [destruct (t' =? t)|]; reflexivity.
  - cbn [pheard flat_map]. rewrite app_nil_r. exact P11.
Qed.
Lemma step_ci : forall pipe H s e, CI pipe H s -> CI pipe ((e, snd (cstep pipe s e)) :: H) (fst (cstep pipe s e)).
Proof.
  intros pipe H s e V. destruct e; cbn [cstep]; [apply exch_ci|apply cancel_ci| |apply recv_ci|apply send_ci|apply listen_ci|apply plisten_ci]; auto.
  destruct (alive s) eqn:A; [apply dispatch_ci; auto|apply dead_line_ci; auto].
Qed.
(** The history of a run. *)
Definition after (pipe : bool) (l : list cop) : hist := rev (snd (crun pipe cinit l)).
Definition state (pipe : bool) (l : list cop) : cst := fst (crun pipe cinit l).
Lemma crun_snoc : forall pipe l s e, crun pipe s (l ++ [e]) =
  let '(s1, r) := crun pipe s l in let '(s2, o) := cstep pipe s1 e in (s2, r ++ [(e, o)]).
Proof.
  induction l as [|x l IH]; intros s e; cbn [app crun].
  - destruct (cstep pipe s e). reflexivity.
  - destruct (cstep pipe s x) as [s1 o]. rewrite IH. destruct (crun pipe s1 l) as [s2 r]. destruct (cstep pipe s2 e). reflexivity.
Qed.
Lemma after_snoc : forall pipe l e, after pipe (l ++ [e]) = (e, snd (cstep pipe (state pipe l) e)) :: after pipe l /\ state pipe (l ++ [e]) = fst (cstep pipe (state pipe l) e).
Proof.
  intros pipe l e. unfold after, state. rewrite crun_snoc. destruct (crun pipe cinit l) as [s1 r]. cbn [fst snd]. destruct (cstep pipe s1 e) as [s2 o]. cbn [fst snd]. rewrite rev_app_distr. auto.
Qed.
Lemma run_ci : forall pipe l, CI pipe (after pipe l) (state pipe l).
Proof.
  intros pipe. apply (rev_ind (fun l => CI pipe (after pipe l) (state pipe l))); [apply ci_init|]. intros e l V. destruct (after_snoc pipe l e) as (-> & ->). apply step_ci. exact V.
Qed.

(** *** C61 *)
(** Each connection's messages are returned by its recv in the order they came,
    each once, none of them another connection's. *)
Theorem conn_in_order : forall pipe l c, exists q, inbox (after pipe l) c = got (after pipe l) c ++ q.
Proof.
  intros pipe l c. pose proof (run_ci pipe l) as V. destruct (dget Z.eqb (objs (state pipe l)) c) as [b|] eqn:E.
  - exists (c_q b). apply (ci_obj _ _ _ V c b E).
  - exists []. destruct (Z_lt_dec c 0) as [L|L]; [destruct (ci_none _ _ _ V c (or_introl L)) as (-> & -> & _); reflexivity|].
    destruct (Z_le_dec (made (state pipe l)) c) as [M|M]; [destruct (ci_none _ _ _ V c (or_intror M)) as (-> & -> & _); reflexivity|].
    exfalso. destruct (proj2 (ci_objs _ _ _ V c) ltac:(lia)) as (b & X). congruence.
Qed.
(** While the connection is open its next message is returned by recv. *)
Theorem conn_next : forall pipe l c h m q, open (after pipe l) h = Some c -> inbox (after pipe l) c = got (after pipe l) c ++ m :: q ->
  exists o, after pipe (l ++ [Recv c]) = (Recv c, OGot c m :: o) :: after pipe l /\
    (if negb (m_err m) && ends (m_ty m) then o = [OShut c] /\ forall h', open (after pipe (l ++ [Recv c])) h' <> Some c else o = []).
Proof.
  intros pipe l c h m q O E. pose proof (run_ci pipe l) as V. destruct (proj2 (ci_objs _ _ _ V c) (ci_range _ _ _ V h c O)) as (b & Eb).
  destruct (ci_obj _ _ _ V c b Eb) as (A1 & _ & A3 & A4). rewrite E in A1. apply app_inv_head in A1.
  assert (Cl : c_closed b = false) by (apply A3; rewrite <- (A4 h O); exact O).
  destruct (after_snoc pipe l (Recv c)) as (Es & _). rewrite Es. cbn [cstep]. unfold recv. rewrite Eb, Cl, <- A1. cbv zeta.
  destruct (m_err m); cbn [negb andb snd]; [exists []; auto|]. destruct (ends (m_ty m)); cbn [snd]; [|exists []; auto].
  unfold close. cbn [set_obj objs]. rewrite dget_dset_same by apply decides_Z. cbn [withq c_closed]. rewrite Cl. cbn [snd]. exists [OShut c]. split; [reflexivity|]. split; [reflexivity|].
  intros h'. rewrite open_out. cbn [fold_left]. change (opn h' (open (after pipe l) h') (OGot c m)) with (open (after pipe l) h').
  change (opn h' (open (after pipe l) h') (OShut c)) with (fold_left (opn h') [OShut c] (open (after pipe l) h')). rewrite shut_open. destruct (isopen (after pipe l) h' c) eqn:X; [discriminate|].
  intros Y. apply isopen_iff in Y. congruence.
Qed.
(** An incoming connection is given once, in order, to the listener it is for. *)
Theorem conn_listen : forall pipe l b, exists q, incoming (after pipe l) b = heard (after pipe l) b ++ q.
Proof.
  intros pipe l c. pose proof (run_ci pipe l) as V. destruct (dget Z.eqb (objs (state pipe l)) c) as [b|] eqn:E.
  - exists (c_lq b). apply (ci_obj _ _ _ V c b E).
  - exists []. destruct (Z_lt_dec c 0) as [L|L]; [destruct (ci_none _ _ _ V c (or_introl L)) as (_ & _ & -> & ->); reflexivity|].
    destruct (Z_le_dec (made (state pipe l)) c) as [M|M]; [destruct (ci_none _ _ _ V c (or_intror M)) as (_ & _ & -> & ->); reflexivity|].
    exfalso. destruct (proj2 (ci_objs _ _ _ V c) ltac:(lia)) as (b & X). congruence.
Qed.
Theorem conn_listen_next : forall pipe l b n q, incoming (after pipe l) b = heard (after pipe l) b ++ n :: q -> after pipe (l ++ [Listen b]) = (Listen b, [ONew b n]) :: after pipe l.
Proof.
  intros pipe l b n q E. pose proof (run_ci pipe l) as V. destruct (after_snoc pipe l (Listen b)) as (Es & _). rewrite Es. cbn [cstep]. unfold listen.
  destruct (dget Z.eqb (objs (state pipe l)) b) as [o|] eqn:Eb.
  - destruct (ci_obj _ _ _ V b o Eb) as (_ & A2 & _). rewrite E in A2. apply app_inv_head in A2. rewrite <- A2. reflexivity.
  - exfalso. assert (X : b < 0 \/ made (state pipe l) <= b).
    { destruct (Z_lt_dec b 0); [auto|]. destruct (Z_le_dec (made (state pipe l)) b); [auto|]. destruct (proj2 (ci_objs _ _ _ V b) ltac:(lia)) as (o & X). congruence. }
    destruct (ci_none _ _ _ V b X) as (_ & _ & Y & Z). rewrite Y, Z in E. discriminate E.
Qed.
Theorem conn_listen_pipe : forall l, exists q, pincoming (after true l) = pheard (after true l) ++ q /\ (forall c t, q = c :: t -> after true (l ++ [PListen]) = (PListen, [ONewP c]) :: after true l).
Proof.
  intros l. pose proof (run_ci true l) as V. exists (lq (state true l)). split; [exact (ci_pipe _ _ _ V)|]. intros c t E. destruct (after_snoc true l PListen) as (-> & _). cbn [cstep]. unfold plisten. rewrite E. reflexivity.
Qed.
(** A request gets the first answer with its tag, and no other; which is also
    the only way for it to end. *)
Lemma parse_out : forall pipe H s m s' rc o x, CI pipe H s -> parse pipe s m = Some (s', rc, o) -> In x o -> match x with OMade _ _ | OShut _ | OSent _ _ => True | _ => False end.
Proof. intros pipe H s m s' rc o x V E. apply (pi_out _ _ _ _ _ _ _ (parse_pi _ _ _ _ _ _ _ V E)). Qed.
Theorem conn_answer : forall pipe l e t rc m,
  In (ODone t rc m) (snd (cstep pipe (state pipe l) e)) <->
  e = Line m /\ m_tag m = Some t /\ dead (after pipe l) = false /\ waits (after pipe l) t = Some Pending /\ ~ stray (after pipe l) m /\
  rc = match m_h m with Some h => if h =? 0 then None else open (after pipe (l ++ [e])) h | None => None end.
Proof.
  intros pipe l e t rc m. pose proof (run_ci pipe l) as V. set (H := after pipe l) in *. set (s := state pipe l) in *.
  assert (Al : alive s = true <-> dead H = false) by (rewrite (ci_alive _ _ _ V); destruct (dead H); split; auto).
  destruct (after_snoc pipe l e) as (Es & _). fold s H in Es. rewrite Es. clear Es.
  assert (NoLine : quiet e -> ~ In (ODone t rc m) (snd (cstep pipe s e))).
  { intros Q. destruct e as [|t'| |c|c k|c|]; try contradiction; cbn [cstep].
    - cbn [exch snd In]. intros [X|[]]. discriminate X.
    - unfold cancel. destruct (dget Z.eqb (exs s) t') as [[|]|]; cbn [snd In]; auto.
    - unfold recv. destruct (dget Z.eqb (objs s) c) as [b|]; [|cbn [snd In]; auto]. destruct (c_closed b); [cbn [snd In]; intros [X|[]]; discriminate X|].
      destruct (c_q b) as [|n q]; [cbn [snd In]; auto|]. cbv zeta. destruct (m_err n); [cbn [snd In]; intros [X|[]]; discriminate X|]. destruct (ends (m_ty n)); [|cbn [snd In]; intros [X|[]]; discriminate X].
      unfold close. cbn [set_obj objs]. rewrite dget_dset_same by apply decides_Z. destruct (c_closed (withq b q)); cbn [snd In]; intros X; decompose [or] X; try discriminate; contradiction.
    - unfold send. destruct (dget Z.eqb (objs s) c) as [b|] eqn:E; [|cbn [snd In]; auto]. destruct (c_closed b) eqn:Cl; [cbn [snd In]; intros [X|[]]; discriminate X|].
      destruct k; [cbn [snd In]; intros [X|[]]; discriminate X|]. unfold close. rewrite E, Cl. cbn [snd In]. intros X. decompose [or] X; try discriminate; contradiction.
    - unfold listen. destruct (dget Z.eqb (objs s) c) as [b|]; [|cbn [snd In]; auto]. destruct (c_lq b); cbn [snd In]; [auto|]. intros [X|[]]. discriminate X.
    - unfold plisten. destruct (lq s); cbn [snd In]; [auto|]. intros [X|[]]. discriminate X. }
  split.
  - intros X. destruct e as [|t'|m'|c|c k|c|]; try (exfalso; apply NoLine; [exact I|exact X]). clear NoLine. cbn [cstep] in *.
    destruct (alive s) eqn:A; [|destruct X]. specialize (proj1 Al eq_refl) as D. unfold dispatch in X |- *.
    destruct (parse pipe s m') as [[[s1 rc1] o]|] eqn:E; [|cbn [snd In] in X; destruct X as [X|[]]; discriminate X].
    pose proof (parse_pi _ _ _ _ _ _ _ V E) as P.
    assert (Out : ~ In (ODone t rc m) o) by (intros Y; apply (pi_out _ _ _ _ _ _ _ P) in Y; exact Y).
    assert (St : ~ stray H m') by (intros Y; apply (parse_stray pipe H s m' V) in Y; congruence).
    destruct (m_tag m') as [t1|] eqn:Et.
    + rewrite (pi_exs _ _ _ _ _ _ _ P) in *. rewrite (ci_exs _ _ _ V A) in *. destruct (waits H t1) as [[|]|] eqn:W.
      * cbn [snd] in X |- *. apply in_app_or in X. destruct X as [X|[X|[]]]; [contradiction|]. injection X as -> -> ->. split; [reflexivity|]. split; [exact Et|]. split; [exact D|]. split; [exact W|]. split; [exact St|].
        rewrite (pi_rc _ _ _ _ _ _ _ P). destruct (m_h m) as [h|]; [|reflexivity]. destruct (h =? 0); [reflexivity|]. rewrite !open_out, fold_left_app. reflexivity.
      * cbn [snd] in X. apply in_app_or in X. destruct X as [X|[X|[]]]; [contradiction|discriminate X].
      * cbn [snd] in X. contradiction.
    + exfalso. apply Out. destruct rc1 as [c|]; [destruct (dget Z.eqb (objs s1) c)|]; exact X.
  - intros (-> & Et & D & W & St & R). cbn [cstep] in *. apply Al in D. rewrite D in *. unfold dispatch in R |- *.
    destruct (parse pipe s m) as [[[s1 rc1] o]|] eqn:E; [|exfalso; apply St, (parse_stray pipe H s m V), E].
    pose proof (parse_pi _ _ _ _ _ _ _ V E) as P. rewrite Et in *. rewrite (pi_exs _ _ _ _ _ _ _ P), (ci_exs _ _ _ V D), W in *. cbn [snd] in *. apply in_or_app. right. left. f_equal.
    rewrite R, (pi_rc _ _ _ _ _ _ _ P). destruct (m_h m) as [h|]; [|reflexivity]. destruct (h =? 0); [reflexivity|]. rewrite !open_out, fold_left_app. reflexivity.
Qed.
(** Requests have tags of their own. *)
Theorem conn_tags : forall pipe l t, In (OReq t) (snd (cstep pipe (state pipe l) Exch)) -> forall e o, In (e, o) (after pipe l) -> ~ In (OReq t) o /\ waits (after pipe l) t = None.
Proof.
  intros pipe l t. pose proof (run_ci pipe l) as V. cbn [cstep exch snd In]. intros [X|[]]. injection X as <-.
  assert (G : forall l, forall e o t, In (e, o) (after pipe l) -> In (OReq t) o -> t <= tag (state pipe l)).
  { apply (rev_ind (fun l => forall e o t, In (e, o) (after pipe l) -> In (OReq t) o -> t <= tag (state pipe l))); [intros e o t []|].
    intros e l' IH e' o t. destruct (after_snoc pipe l' e) as (-> & ->). pose proof (run_ci pipe l') as V'. set (s := state pipe l') in *.
    assert (Tg : tag s <= tag (fst (cstep pipe s e)) /\ forall t, In (OReq t) (snd (cstep pipe s e)) -> t <= tag (fst (cstep pipe s e))).
    { destruct e as [|t'|m|c|c k|c|]; cbn [cstep].
      - cbn [exch fst snd tag In]. split; [lia|]. intros t0 [Y|[]]. injection Y as <-. lia.
      - unfold cancel. destruct (dget Z.eqb (exs s) t') as [[|]|]; cbn [fst snd set_exs tag In]; (split; [lia|intros t0 []]).
      - destruct (alive s); [|cbn [fst snd In]; split; [lia|intros t0 []]]. unfold dispatch. destruct (parse pipe s m) as [[[s1 rc1] o1]|] eqn:E; [|cbn [fst snd die tag In]; split; [lia|intros t0 [Y|[]]; discriminate Y]].
        pose proof (parse_pi _ _ _ _ _ _ _ V' E) as P. pose proof (pi_tag _ _ _ _ _ _ _ P) as Pt. assert (Out : forall t, ~ In (OReq t) o1) by (intros t0 Y; apply (pi_out _ _ _ _ _ _ _ P) in Y; exact Y).
        destruct (m_tag m) as [t1|].
        + destruct (dget Z.eqb (exs s1) t1) as [[|]|]; cbn [fst snd set_exs die tag]; rewrite Pt; (split; [lia|]); intros t0 Y; try (apply in_app_or in Y; destruct Y as [Y|[Y|[]]]; [|discriminate Y]); destruct (Out _ Y).
        + destruct rc1 as [c|]; [destruct (dget Z.eqb (objs s1) c)|]; cbn [fst snd set_obj tag]; rewrite Pt; (split; [lia|]); intros t0 Y; destruct (Out _ Y).
      - unfold recv. destruct (dget Z.eqb (objs s) c) as [b|]; [|cbn [fst snd In]; split; [lia|intros t0 []]]. destruct (c_closed b); [cbn [fst snd In]; split; [lia|intros t0 [Y|[]]; discriminate Y]|].
        destruct (c_q b) as [|n q]; [cbn [fst snd In]; split; [lia|intros t0 []]|]. cbv zeta. destruct (m_err n); [cbn [fst snd In set_obj tag]; split; [lia|intros t0 [Y|[]]; discriminate Y]|].
        destruct (ends (m_ty n)); [|cbn [fst snd In set_obj tag]; split; [lia|intros t0 [Y|[]]; discriminate Y]].
        unfold close. cbn [set_obj objs]. rewrite dget_dset_same by apply decides_Z. destruct (c_closed (withq b q)); cbn [fst snd In set_obj set_conns tag]; (split; [lia|]); intros t0 Y; decompose [or] Y; try discriminate; contradiction.
      - unfold send. destruct (dget Z.eqb (objs s) c) as [b|] eqn:E; [|cbn [fst snd In]; split; [lia|intros t0 []]]. destruct (c_closed b) eqn:Cl; [cbn [fst snd In]; split; [lia|intros t0 [Y|[]]; discriminate Y]|].
        destruct k; [cbn [fst snd In]; split; [lia|intros t0 [Y|[]]; discriminate Y]|]. unfold close. rewrite E, Cl. cbn [fst snd In set_obj set_conns tag]. split; [lia|]. intros t0 Y. decompose [or] Y; try discriminate; contradiction.
      - unfold listen. destruct (dget Z.eqb (objs s) c) as [b|]; [|cbn [fst snd In]; split; [lia|intros t0 []]]. destruct (c_lq b); cbn [fst snd In set_obj tag]; (split; [lia|]); [intros t0 []|intros t0 [Y|[]]; discriminate Y].
      - unfold plisten. destruct (lq s); cbn [fst snd In set_lq tag]; (split; [lia|]); [intros t0 []|intros t0 [Y|[]]; discriminate Y]. }
    intros [X|X] Y; [injection X as <- <-; apply Tg; exact Y|]. specialize (IH _ _ _ X Y). lia. }
  intros e o X. split; [intros Y; specialize (G l e o _ X Y); lia|]. apply (ci_tag _ _ _ V). lia.
Qed.
(** The receiver fails exactly on a message for a connection that is not open,
    and on the answer to a cancelled request. *)
Theorem conn_fails : forall pipe l e, In ODead (snd (cstep pipe (state pipe l) e)) <->
  exists m, e = Line m /\ dead (after pipe l) = false /\
    (stray (after pipe l) m \/ exists t, m_tag m = Some t /\ waits (after pipe l) t = Some Cancelled).
Proof.
  intros pipe l e. pose proof (run_ci pipe l) as V. set (H := after pipe l) in *. set (s := state pipe l) in *.
  assert (Al : alive s = true <-> dead H = false) by (rewrite (ci_alive _ _ _ V); destruct (dead H); split; auto).
  pose proof (step_ci pipe H s e V) as V'. pose proof (ci_alive _ _ _ V') as A'. rewrite dead_out in A'.
  assert (Dd : In ODead (snd (cstep pipe s e)) <-> existsb isdead (snd (cstep pipe s e)) = true).
  { rewrite existsb_exists. split; [intros X; exists ODead; auto|]. intros (x & X & Y). destruct x; try discriminate Y. exact X. }
  rewrite Dd. split.
  - intros X. rewrite X in A'. cbn [orb negb] in A'. destruct e as [|t'|m|c|c k|c|]; cbn [cstep] in *.
    1,2,4,5,6,7: exfalso.
    + discriminate X.
    + unfold cancel in X. destruct (dget Z.eqb (exs s) t') as [[|]|]; discriminate X.
    + unfold recv in X. destruct (dget Z.eqb (objs s) c) as [b|]; [|discriminate X]. destruct (c_closed b); [discriminate X|]. destruct (c_q b) as [|n q]; [discriminate X|]. cbv zeta in X.
      destruct (m_err n); [discriminate X|]. destruct (ends (m_ty n)); [|discriminate X]. unfold close in X. cbn [set_obj objs] in X. rewrite dget_dset_same in X by apply decides_Z. destruct (c_closed (withq b q)); discriminate X.
    + unfold send in X. destruct (dget Z.eqb (objs s) c) as [b|] eqn:E; [|discriminate X]. destruct (c_closed b) eqn:Cl; [discriminate X|]. destruct k; [discriminate X|]. unfold close in X. rewrite E, Cl in X. discriminate X.
    + unfold listen in X. destruct (dget Z.eqb (objs s) c) as [b|]; [|discriminate X]. destruct (c_lq b); discriminate X.
    + unfold plisten in X. destruct (lq s); discriminate X.
    + destruct (alive s) eqn:A; [|discriminate X]. exists m. split; [reflexivity|]. split; [apply Al; reflexivity|]. unfold dispatch in X, A'.
      destruct (parse pipe s m) as [[[s1 rc1] o]|] eqn:E; [|left; apply (parse_stray pipe H s m V); exact E]. right.
      pose proof (parse_pi _ _ _ _ _ _ _ V E) as P. pose proof (pi_alive _ _ _ _ _ _ _ P) as Pa. rewrite A in Pa. destruct (m_tag m) as [t|].
      * rewrite (pi_exs _ _ _ _ _ _ _ P), (ci_exs _ _ _ V A) in *. exists t. split; [reflexivity|]. destruct (waits H t) as [[|]|]; [|reflexivity|]; cbn [fst set_exs alive] in A'; congruence.
      * destruct rc1 as [c|]; [destruct (dget Z.eqb (objs s1) c)|]; cbn [fst set_obj alive] in A'; congruence.
  - intros (m & -> & D & X). cbn [cstep]. apply Al in D. rewrite D. unfold dispatch. destruct (parse pipe s m) as [[[s1 rc1] o]|] eqn:E; [|reflexivity].
    destruct X as [X|(t & Et & W)]; [apply (parse_stray pipe H s m V) in X; congruence|]. pose proof (parse_pi _ _ _ _ _ _ _ V E) as P. rewrite Et, (pi_exs _ _ _ _ _ _ _ P), (ci_exs _ _ _ V D), W. cbn [snd].
    rewrite existsb_app, orb_true_iff. right. reflexivity.
Qed.
(** A connection that was closed refuses every call. *)
Theorem conn_closed : forall pipe l c h e o, In (e, o) (after pipe l) -> In (OMade c h) o -> (forall h', open (after pipe l) h' <> Some c) ->
  after pipe (l ++ [Recv c]) = (Recv c, [OClosed]) :: after pipe l /\ forall k, after pipe (l ++ [Send c k]) = (Send c k, [OClosed]) :: after pipe l.
Proof.
  intros pipe l c h e o X Y N. pose proof (run_ci pipe l) as V.
  assert (G : forall l, forall e o c h, In (e, o) (after pipe l) -> In (OMade c h) o -> 0 <= c < made (state pipe l)).
  { clear. apply (rev_ind (fun l => forall e o c h, In (e, o) (after pipe l) -> In (OMade c h) o -> 0 <= c < made (state pipe l))); [intros e o c h []|].
    intros e l IH e' o c h. destruct (after_snoc pipe l e) as (-> & ->). pose proof (run_ci pipe l) as V. set (s := state pipe l) in *. pose proof (ci_made _ _ _ V) as M0.
    assert (Md : made s <= made (fst (cstep pipe s e)) /\ forall c h, In (OMade c h) (snd (cstep pipe s e)) -> 0 <= c < made (fst (cstep pipe s e))).
    { destruct e as [|t'|m|c0|c0 k|c0|]; cbn [cstep].
      - cbn [exch fst snd made In]. split; [lia|]. intros c1 h1 [Y|[]]. discriminate Y.
      - unfold cancel. destruct (dget Z.eqb (exs s) t') as [[|]|]; cbn [fst snd set_exs made In]; (split; [lia|intros c1 h1 []]).
      - assert (Pm : forall s1 rc1 o1, parse pipe s m = Some (s1, rc1, o1) -> made s <= made s1 /\ forall c h, In (OMade c h) o1 -> 0 <= c < made s1).
        { unfold parse. intros s1 rc1 o1. destruct (m_h m) as [h0|]; [|intros E; injection E as <- <- <-; split; [lia|intros c1 h1 []]]. destruct (h0 =? 0); [intros E; injection E as <- <- <-; split; [lia|intros c1 h1 []]|].
          destruct (dget Z.eqb (conns s) h0); [intros E; injection E as <- <- <-; split; [lia|intros c1 h1 []]|].
          assert (Mk : makeconn pipe s m h0 = (s1, rc1, o1) -> made s <= made s1 /\ (forall c h, In (OMade c h) o1 -> 0 <= c < made s1)).
          { assert (One : forall s2, made s2 = made s + 1 -> made s <= made s2 /\ (forall c h, In (OMade c h) [OMade (made s) h0] -> 0 <= c < made s2)).
            { intros s2 E2. rewrite E2. split; [lia|]. intros c1 h1 [Y|[]]. injection Y as <- <-. lia. }
            unfold makeconn. cbv zeta. destruct (m_ty m); try (intros E; injection E as <- <- <-; apply One; reflexivity).
            destruct (m_lh m) as [bh|]; [|intros E; injection E as <- <- <-; apply One; destruct pipe; reflexivity].
            destruct (dget Z.eqb (conns (new_conn s h0)) bh) as [bc|].
            - destruct (dget Z.eqb (objs (new_conn s h0)) bc) as [b|]; intros E; injection E as <- <- <-; apply One; reflexivity.
            - unfold close. cbn [new_conn objs]. rewrite dget_dset_same by apply decides_Z. cbn [c_closed]. intros E. injection E as <- <- <-. cbn [set_conns set_obj made].
              cbn [new_conn made]. split; [lia|]. intros c1 h1 Y. cbn [app In] in Y. decompose [or] Y; try discriminate; try contradiction. match goal with Z : OMade _ _ = _ |- _ => injection Z as <- <- end. lia. }
          destruct (m_ty m); intros E; try discriminate E; injection E as E; apply Mk; exact E. }
        destruct (alive s); [|cbn [fst snd In]; split; [lia|intros c1 h1 []]]. unfold dispatch. destruct (parse pipe s m) as [[[s1 rc1] o1]|]; [|cbn [fst snd die made In]; split; [lia|intros c1 h1 [Y|[]]; discriminate Y]].
        destruct (Pm _ _ _ eq_refl) as (P1 & P2). destruct (m_tag m) as [t1|].
        + destruct (dget Z.eqb (exs s1) t1) as [[|]|]; cbn [fst snd set_exs die made]; (split; [lia|]); intros c1 h1 Y; try (apply in_app_or in Y; destruct Y as [Y|[Y|[]]]; [|discriminate Y]); eapply P2; exact Y.
        + destruct rc1 as [c1|]; [destruct (dget Z.eqb (objs s1) c1)|]; cbn [fst snd set_obj made]; auto.
      - unfold recv. destruct (dget Z.eqb (objs s) c0) as [b|]; [|cbn [fst snd In]; split; [lia|intros c1 h1 []]]. destruct (c_closed b); [cbn [fst snd In]; split; [lia|intros c1 h1 [Y|[]]; discriminate Y]|].
        destruct (c_q b) as [|n q]; [cbn [fst snd In]; split; [lia|intros c1 h1 []]|]. cbv zeta. destruct (m_err n); [cbn [fst snd In set_obj made]; split; [lia|intros c1 h1 [Y|[]]; discriminate Y]|].
        destruct (ends (m_ty n)); [|cbn [fst snd In set_obj made]; split; [lia|intros c1 h1 [Y|[]]; discriminate Y]].
        unfold close. cbn [set_obj objs]. rewrite dget_dset_same by apply decides_Z. destruct (c_closed (withq b q)); cbn [fst snd In set_obj set_conns made]; (split; [lia|]); intros c1 h1 Y; decompose [or] Y; try discriminate; contradiction.
      - unfold send. destruct (dget Z.eqb (objs s) c0) as [b|] eqn:E; [|cbn [fst snd In]; split; [lia|intros c1 h1 []]]. destruct (c_closed b) eqn:Cl; [cbn [fst snd In]; split; [lia|intros c1 h1 [Y|[]]; discriminate Y]|].
        destruct k; [cbn [fst snd In]; split; [lia|intros c1 h1 [Y|[]]; discriminate Y]|]. unfold close. rewrite E, Cl. cbn [fst snd In set_obj set_conns made]. split; [lia|]. intros c1 h1 Y. decompose [or] Y; try discriminate; contradiction.
      - unfold listen. destruct (dget Z.eqb (objs s) c0) as [b|]; [|cbn [fst snd In]; split; [lia|intros c1 h1 []]]. destruct (c_lq b); cbn [fst snd In set_obj made]; (split; [lia|]); [intros c1 h1 []|intros c1 h1 [Y|[]]; discriminate Y].
      - unfold plisten. destruct (lq s); cbn [fst snd In set_lq made]; (split; [lia|]); [intros c1 h1 []|intros c1 h1 [Y|[]]; discriminate Y]. }
    intros [X|X] Y; [injection X as <- <-; eapply Md; exact Y|]. specialize (IH _ _ _ _ X Y). lia. }
  destruct (proj2 (ci_objs _ _ _ V c) (G l e o c h X Y)) as (b & Eb). destruct (ci_obj _ _ _ V c b Eb) as (_ & _ & A3 & _).
  assert (Cl : c_closed b = true) by (destruct (c_closed b); [reflexivity|exfalso; apply (N (c_h b)), A3; reflexivity]).
  split; [|intros k]; [destruct (after_snoc pipe l (Recv c)) as (-> & _)|destruct (after_snoc pipe l (Send c k)) as (-> & _)]; cbn [cstep]; [unfold recv|unfold send]; rewrite Eb, Cl; reflexivity.
Qed.
(** An incoming connection for a listener that is gone is rejected. *)
Theorem conn_no_listener : forall pipe l m h b, dead (after pipe l) = false -> m_h m = Some h -> h <> 0 -> m_ty m = TConnect -> m_tag m = None -> m_lh m = Some b -> b <> h ->
  open (after pipe l) h = None -> open (after pipe l) b = None ->
  exists c, after pipe (l ++ [Line m]) = (Line m, [OMade c h; OSent c SEnd; OShut c]) :: after pipe l /\ forall h', open (after pipe (l ++ [Line m])) h' <> Some c.
Proof.
  intros pipe l m h b D Eh Nh Et Eg El Nb Oh Ob. pose proof (run_ci pipe l) as V. destruct (after_snoc pipe l (Line m)) as (Es & Es2). exists (made (state pipe l)).
  assert (A : alive (state pipe l) = true) by (rewrite (ci_alive _ _ _ V), D; reflexivity).
  assert (E : snd (cstep pipe (state pipe l) (Line m)) = [OMade (made (state pipe l)) h; OSent (made (state pipe l)) SEnd; OShut (made (state pipe l))]).
  { cbn [cstep]. rewrite A. unfold dispatch, parse. rewrite Eh, (ci_conns _ _ _ V), Oh, Et. destruct (Z.eqb_spec h 0); [contradiction|]. unfold makeconn. cbv zeta. rewrite Et, El. cbn [new_conn conns].
    rewrite dget_dset_other by (auto using decides_Z). rewrite (ci_conns _ _ _ V), Ob. unfold close. cbn [new_conn objs]. rewrite dget_dset_same by apply decides_Z. cbn [c_closed]. rewrite Eg. reflexivity. }
  rewrite E in Es. split; [exact Es|]. rewrite Es. intros h'. rewrite open_out. cbn [fold_left opn]. destruct (Z.eqb_spec h h') as [<-|N]; [rewrite Z.eqb_refl; discriminate|].
  destruct (open (after pipe l) h') as [c|] eqn:O; [|discriminate]. apply (ci_range _ _ _ V) in O. destruct (Z.eqb_spec (made (state pipe l)) c); [lia|]. intros X. injection X as X. lia.
Qed.
(** Which breaks what the classes are for: data that cross a disconnect, or the
    answer to a request that was given up, stop all connections. *)
Definition mk (h : option Z) (ty : mtype) (t : option Z) (d : list Z) : msg := {| m_h := h; m_ty := ty; m_tag := t; m_err := false; m_lh := None; m_data := d |}.
Theorem conn_crossing_refuted : exists l, dead (after false l) = true /\ (exists c, open (after false l) 12 = Some c) /\
  (forall e, In e l -> forall t, e <> Cancel t) /\ (forall m, In (Line m) l -> m_h m = Some 11 \/ m_h m = Some 12).
Proof.
  exists [Exch; Line (mk (Some 11) TConnecting (Some 2) []); Exch; Line (mk (Some 12) TConnecting (Some 3) []); Send 0 SEnd; Line (mk (Some 11) TOther None [1])].
  split; [vm_compute; reflexivity|]. split; [exists 1; vm_compute; reflexivity|]. split; [intros e X t; cbn [In] in X; decompose [or] X; subst; try discriminate; contradiction|].
  intros m X. cbn [In] in X. decompose [or] X; try contradiction; match goal with Y : _ = Line m |- _ => first [discriminate Y|injection Y as <-; cbn [mk m_h]; auto] end.
Qed.
Theorem conn_cancel_refuted : exists l, dead (after false l) = true /\ (exists c, open (after false l) 11 = Some c) /\ forall c, ~ In (Send c SEnd) l /\ ~ In (Recv c) l.
Proof.
  exists [Exch; Line (mk (Some 11) TConnecting (Some 2) []); Exch; Cancel 3; Line (mk (Some 12) TConnecting (Some 3) [])].
  split; [vm_compute; reflexivity|]. split; [exists 0; vm_compute; reflexivity|]. intros c. split; intros X; cbn [In] in X; decompose [or] X; try discriminate; contradiction.
Qed.
(** A conversation on two connections, with an incoming one. *)
Example conn_demo :
  let l := [Exch; Exch; Line (mk (Some 12) TBind (Some 3) []); Line (mk (Some 11) TConnecting (Some 2) []); Line (mk (Some 11) TOther None [7]);
            Line {| m_h := Some 13; m_ty := TConnect; m_tag := None; m_err := false; m_lh := Some 12; m_data := [] |};
            Listen 0; Line (mk (Some 13) TOther None [8]); Line (mk (Some 11) TDisconnect None []); Recv 2; Recv 1; Recv 1; Recv 2] in
  let H := after false l in
  In (Line (mk (Some 11) TConnecting (Some 2) []), [OMade 1 11; ODone 2 (Some 1) (mk (Some 11) TConnecting (Some 2) [])]) H /\
  got H 1 = [mk (Some 11) TOther None [7]; mk (Some 11) TDisconnect None []] /\ map m_data (got H 2) = [[]; [8]] /\ heard H 0 = [2] /\ open H 11 = None /\ open H 13 = Some 2 /\ dead H = false.
Proof. vm_compute. intuition. Qed.

Print Assumptions conn_in_order.
Print Assumptions conn_next.
Print Assumptions conn_listen.
Print Assumptions conn_listen_next.
Print Assumptions conn_listen_pipe.
Print Assumptions conn_answer.
Print Assumptions conn_tags.
Print Assumptions conn_fails.
Print Assumptions conn_crossing_refuted.
Print Assumptions conn_cancel_refuted.
Print Assumptions conn_closed.
Print Assumptions conn_no_listener.
