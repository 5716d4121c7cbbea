(** C68: requests and replies of the API server. *)
From Coq Require Import String Ascii.
From Verif Require Import Base Dict ApiModel.

(** *** Lines: it does not matter how the bytes arrive *)
Definition no_nl (l : list Z) : Prop := ~ In 10 l.
Definition text (lines : list (list Z)) (rest : list Z) : list Z := flat_map (fun l => l ++ [10]) lines ++ rest.
Lemma split_text : forall lines rest acc, Forall no_nl lines -> no_nl rest ->
  split_lines acc (text lines rest) =
  match lines with [] => ([], acc ++ rest) | l :: t => ((acc ++ l) :: t, rest) end.
Proof.
  assert (R : forall rest acc, no_nl rest -> split_lines acc rest = ([], acc ++ rest)).
  { induction rest as [|c rest IH]; intros acc N; cbn [split_lines]; [rewrite app_nil_r; reflexivity|].
    destruct (Z.eqb_spec c 10) as [-> | NE]; [exfalso; apply N; left; reflexivity|].
    rewrite IH, <- app_assoc; [reflexivity|]. intro I. apply N. right. exact I. }
  assert (L : forall l t acc, no_nl l -> split_lines acc (l ++ 10 :: t) =
    let '(ls, r) := split_lines [] t in ((acc ++ l) :: ls, r)).
  { induction l as [|c l IH]; intros t acc N; cbn [app split_lines].
    - rewrite Z.eqb_refl, app_nil_r. reflexivity.
    - destruct (Z.eqb_spec c 10) as [-> | NE]; [exfalso; apply N; left; reflexivity|].
      rewrite IH by (intro I; apply N; right; exact I). rewrite <- app_assoc. reflexivity. }
  induction lines as [|l lines IH]; intros rest acc F N; unfold text; cbn [flat_map app].
  - apply R, N.
  - inversion F as [|? ? F1 F2]; subst. rewrite <- !app_assoc. cbn [app].
    rewrite L by exact F1. fold (text lines rest). rewrite IH by assumption. destruct lines; reflexivity.
Qed.
(** Any bytes are lines and a rest. *)
Lemma text_of : forall l, exists lines rest, Forall no_nl lines /\ no_nl rest /\ l = text lines rest.
Proof.
  induction l as [|c l (lines & rest & F & N & E)].
  - exists [], []. split; [constructor|]. split; [intros [] | reflexivity].
  - destruct (Z.eq_dec c 10) as [-> | NE].
    + exists ([] :: lines), rest. split; [constructor; [intros [] | exact F]|]. split; [exact N|]. rewrite E. reflexivity.
    + destruct lines as [|l0 lines].
      * exists [], (c :: rest). split; [constructor|]. split; [intros [X | X]; [congruence | exact (N X)]|].
        rewrite E. reflexivity.
      * inversion F as [|? ? F1 F2]; subst. exists ((c :: l0) :: lines), rest. split; [|split; [exact N | reflexivity]].
        constructor; [intros [X | X]; [congruence | exact (F1 X)] | exact F2].
Qed.
Lemma text_inj : forall lines lines' rest rest', Forall no_nl lines -> Forall no_nl lines' -> no_nl rest -> no_nl rest' ->
  text lines rest = text lines' rest' -> lines = lines' /\ rest = rest'.
Proof.
  intros lines lines' rest rest' F F' N N' E. apply (f_equal (split_lines [])) in E.
  rewrite !split_text in E by assumption. cbn [app] in E.
  destruct lines, lines'; injection E; intros; subst; auto; discriminate.
Qed.

Section Run.
Variables (ns : nodes) (sub : layers) (dec : list Z -> json + list Z).
Let HL := handle_line ns sub dec.
Definition same (h h' : handler) : Prop :=
  a_open h = a_open h' /\ a_sent h = a_sent h' /\ a_calls h = a_calls h' /\ a_ret h = a_ret h'.
Lemma same_line : forall h h' l, same h h' -> same (HL h l) (HL h' l).
Proof using.
  intros h h' l (A & B & C & D). unfold HL, handle_line. rewrite A, B, C, D. unfold same.
  destruct (negb (a_open h')) eqn:O; [repeat split; assumption|].
  destruct l as [|c l]; [repeat split|]. destruct (dec (c :: l)) as [[ | | |s| |d]|e]; try (repeat split; fail).
  - destruct (leqb s k_bad); [|repeat split]. destruct (a_ret h'); repeat split.
  - destruct (handle_req ns sub (a_calls h') d) as [k [r|x]]; repeat split.
Qed.
Lemma same_lines : forall ls h h', same h h' -> same (fold_left HL ls h) (fold_left HL ls h').
Proof using. induction ls as [|l ls IH]; intros h h' S; [exact S|]. cbn [fold_left]. apply IH, same_line, S. Qed.
Lemma closed_line : forall h l, a_open h = false -> HL h l = h.
Proof using. intros h l O. unfold HL, handle_line. rewrite O. reflexivity. Qed.
Lemma closed_lines : forall ls h, a_open h = false -> fold_left HL ls h = h.
Proof using. induction ls as [|l ls IH]; intros h O; [reflexivity|]. cbn [fold_left]. rewrite closed_line; auto. Qed.

Lemma recv_lines : forall chunks, ~ In [] chunks -> forall lines rest,
  Forall no_nl lines -> no_nl rest -> concat chunks = text lines rest ->
  same (fold_left HL lines handler0) (handler_run ns sub dec chunks) /\
  (a_open (handler_run ns sub dec chunks) = true -> a_pending (handler_run ns sub dec chunks) = rest).
Proof using.
  induction chunks as [|c chunks IH] using rev_ind; intros NE lines rest F N E.
  - cbn [concat] in E. assert (T : text [] [] = text lines rest) by exact E.
    apply text_inj in T as [<- <-]; auto. split; [repeat split | reflexivity].
  - assert (NE' : ~ In [] chunks) by (intro I; apply NE, in_or_app; left; exact I).
    assert (C : c <> []) by (intros ->; apply NE, in_or_app; right; left; reflexivity).
    destruct (text_of (concat chunks)) as (l1 & r1 & F1 & N1 & E1).
    destruct (IH NE' l1 r1 F1 N1 E1) as [S P]. clear IH.
    unfold handler_run in *. rewrite fold_left_app. cbn [fold_left].
    set (h := fold_left (handler_recv ns sub dec) chunks handler0) in *.
    rewrite concat_app in E. cbn [concat] in E. rewrite app_nil_r, E1 in E.
    destruct (text_of (r1 ++ c)) as (l2 & r2 & F2 & N2 & E2).
    assert (EQ : text lines rest = text (l1 ++ l2) r2).
    { rewrite <- E. unfold text. rewrite flat_map_app, <- !app_assoc. f_equal. exact E2. }
    apply text_inj in EQ as [-> ->]; auto; try (apply Forall_app; auto).
    rewrite fold_left_app. unfold handler_recv. destruct S as (S1 & S2 & S3 & S4).
    destruct (a_open h) eqn:O; cbn [negb].
    + destruct c as [|c0 c]; [contradiction C; reflexivity|]. rewrite (P eq_refl), E2.
      rewrite split_text by assumption. cbn [app].
      assert (SP : (match l2 with [] => ([], r2) | l :: t => (l :: t, r2) end) = (l2, r2)) by (destruct l2; reflexivity).
      rewrite SP. assert (SM : same (fold_left HL l2 (fold_left HL l1 handler0)) (fold_left HL l2 h)).
      { apply same_lines. split; [congruence|]. auto. }
      destruct SM as (M1 & M2 & M3 & M4).
      split; [split; [exact M1|]; split; [exact M2|]; split; [exact M3 | exact M4] | reflexivity].
    + rewrite closed_lines by congruence. split; [split; [congruence|]; auto|]. intro X. congruence.
Qed.
End Run.
(** The replies, in order, and whether the connection is still up, depend on
    the lines received alone, however their bytes arrived. *)
Theorem api_stream : forall ns sub dec chunks lines rest,
  ~ In [] chunks -> Forall no_nl lines -> no_nl rest -> concat chunks = text lines rest ->
  a_sent (handler_run ns sub dec chunks) = a_sent (fold_left (handle_line ns sub dec) lines handler0) /\
  a_open (handler_run ns sub dec chunks) = a_open (fold_left (handle_line ns sub dec) lines handler0).
Proof.
  intros ns sub dec chunks lines rest NE F N E.
  destruct (recv_lines ns sub dec chunks NE lines rest F N E) as [(A & B & _) _]. auto.
Qed.
Print Assumptions api_stream.

(** *** What a request gets *)
(** A JSON object as a function of its keys. *)
Definition at_ {V} (d : dict (list Z) V) (k : list Z) : option V := dget leqb d k.
(** The tag of a request; null counts as none. *)
Definition tag_of (d : jdict) : option json :=
  match at_ d k_tag with Some JNull => None | t => t end.
(** The reply [r] with the values of [l] put in. *)
Definition reply_is (ret r : jdict) (l : list (list Z * option json)) : Prop :=
  forall k, at_ ret k = match find (fun x => leqb (fst x) k) l with
                        | Some (_, Some v) => Some v
                        | _ => at_ r k
                        end.
(** The system a request is for: what it says, else the only one there is. *)
Definition system_of (ns : nodes) (d : jdict) : option json :=
  match at_ d k_system with
  | Some s => Some s
  | None => match ns with [(n, _)] => Some (JStr n) | _ => None end
  end.
Definition type_of (d : jdict) : json := match at_ d k_type with Some t => t | None => JStr k_get end.
(** The request without the keys the server itself uses. *)
Definition args_of (d args : jdict) : Prop :=
  forall k, at_ args k = if existsb (leqb k) [k_tag; k_system; k_api; k_type] then None else at_ d k.

Lemma dset_cons : forall (d : jdict) k v, exists x l, dset leqb d k v = x :: l.
Proof. intros [|[k' v'] d] k v; cbn [dset]; [eauto|]. destruct (leqb k k'); eauto. Qed.
Lemma leqb_sym : forall a b, leqb a b = leqb b a.
Proof.
  intros a b. destruct (leqb a b) eqn:E, (leqb b a) eqn:F; auto.
  - apply leqb_eq in E. subst. assert (leqb b b = true) by (apply leqb_eq; reflexivity). congruence.
  - apply leqb_eq in F. subst. assert (leqb a a = true) by (apply leqb_eq; reflexivity). congruence.
Qed.
(** What handle_line does with a request, given what handle_req says. *)
Lemma line_req : forall ns sub dec h line d, a_open h = true -> line <> [] -> dec line = inl (JObj d) ->
  handle_line ns sub dec h line =
  let '(c, r) := handle_req ns sub (a_calls h) d in
  match r with
  | Ok ret => mkH (a_pending h) (Some ret) true c (send_if ret (a_sent h))
  | Err _ => mkH (a_pending h) (a_ret h) false c (a_sent h)
  end.
Proof.
  intros ns sub dec h line d O L E. unfold handle_line. rewrite O. cbn [negb].
  destruct line as [|c line]; [contradiction L; reflexivity|]. rewrite E. reflexivity.
Qed.
(** handle_req with the lookups done in the request itself. *)
Definition req_core (ns : nodes) (sub : layers) (calls : Z) (d args : jdict) : Z * res (option jdict) :=
  let system := match system_of ns d with Some s => s | None => JNull end in
  let subsys := match at_ d k_api with Some s => s | None => JNull end in
  let go (node : option (list Z * anode)) :=
    if negb (jtrue system) then (calls, Ok (Some [(k_error, t_nosys)]))
    else if negb (jtrue subsys) then (calls, Ok (Some [(k_error, t_noapi)]))
    else match node with
         | None => (calls, Ok (Some [(k_system, system); (k_error, t_unksys)]))
         | Some (name, nd) =>
             let '(c, r) := node_api sub calls name nd subsys (type_of d) (tag_of d) args in
             (c, let* o := r in
                 match o with
                 | Some (x :: t) => Ok (Some (dset leqb (dset leqb (x :: t) k_system system) k_api subsys))
                 | _ => Ok o
                 end)
         end in
  if jtrue system then
    match system with
    | JStr s => go (match dget leqb ns (upper s) with Some nd => Some (upper s, nd) | None => None end)
    | _ => (calls, Err EAttr)
    end
  else go None.
Definition req_tag (d : jdict) (x : Z * res (option jdict)) : Z * res (option jdict) :=
  (fst x, let* o := snd x in
          match o, tag_of d with
          | Some (x :: l), Some t => Ok (Some (dset leqb (x :: l) k_tag t))
          | _, _ => Ok o
          end).
Lemma notnull_tag : forall d, notnull (dget leqb d k_tag) = tag_of d.
Proof. intro d. unfold notnull, tag_of, at_. destruct (dget leqb d k_tag) as [[]|]; reflexivity. Qed.
Lemma req_split : forall ns sub calls d k v, at_ d k = Some v -> k <> k_tag ->
  exists args, args_of d args /\ handle_req ns sub calls d = req_tag d (req_core ns sub calls d args).
Proof.
  intros ns sub calls d k v G NK. unfold handle_req, jpop.
  set (d1 := ddel leqb d k_tag). destruct d1 as [|p q] eqn:D1.
  { exfalso. assert (X : at_ d1 k = Some v) by (unfold at_, d1; rewrite (dget_ddel_other leqb decides_leqb) by exact NK; exact G).
    rewrite D1 in X. discriminate X. }
  rewrite <- D1. exists (ddel leqb (ddel leqb (ddel leqb d1 k_system) k_api) k_type). split.
  { intro k'. unfold at_, d1. rewrite !(dget_ddel leqb decides_leqb). cbn [existsb].
    destruct (leqb k' k_tag), (leqb k' k_system), (leqb k' k_api), (leqb k' k_type); reflexivity. }
  assert (S : dget leqb d1 k_system = at_ d k_system) by (apply (dget_ddel_other leqb decides_leqb); discriminate).
  assert (A : dget leqb (ddel leqb d1 k_system) k_api = at_ d k_api).
  { unfold d1. rewrite !(dget_ddel_other leqb decides_leqb) by discriminate. reflexivity. }
  assert (T : dget leqb (ddel leqb (ddel leqb d1 k_system) k_api) k_type = at_ d k_type).
  { unfold d1. rewrite !(dget_ddel_other leqb decides_leqb) by discriminate. reflexivity. }
  assert (SY : match at_ d k_system with Some s => s | None => defnode ns end =
    match match at_ d k_system with Some s => Some s | None => match ns with [(n, _)] => Some (JStr n) | _ => None end end with
    | Some s => s | None => JNull end).
  { destruct (at_ d k_system); [reflexivity|]. unfold defnode. destruct ns as [|[n x] [|y t]]; reflexivity. }
  rewrite S, A, T, SY. clear SY.
  match goal with |- (let '(_, _) := ?X in _) = _ => assert (XX : X = req_core ns sub calls d (ddel leqb (ddel leqb (ddel leqb d1 k_system) k_api) k_type)) end.
  { unfold req_core, system_of, type_of. rewrite notnull_tag. reflexivity. }
  rewrite XX.
  destruct (req_core ns sub calls d _) as [c r]. rewrite notnull_tag. reflexivity.
Qed.

(** Putting in system, API and tag. *)
Lemma tag_fin : forall d c x t, exists y l, req_tag d (c, Ok (Some (x :: t))) = (c, Ok (Some (y :: l))) /\
  forall k, at_ (y :: l) k = if leqb k_tag k then match tag_of d with Some g => Some g | None => at_ (x :: t) k end else at_ (x :: t) k.
Proof.
  intros d c x t. unfold req_tag. cbn [fst snd bind]. destruct (tag_of d) as [g|].
  - destruct (dset_cons (x :: t) k_tag g) as (y & l & E). exists y, l. rewrite E. split; [reflexivity|].
    intro k. rewrite <- E. unfold at_. rewrite (dget_dset leqb decides_leqb), (leqb_sym k k_tag). reflexivity.
  - exists x, t. split; [reflexivity|]. intro k. destruct (leqb k_tag k); reflexivity.
Qed.
Lemma echo_fin : forall d c x t sy ap, exists y l,
  req_tag d (c, Ok (Some (dset leqb (dset leqb (x :: t) k_system sy) k_api ap))) = (c, Ok (Some (y :: l))) /\
  reply_is (y :: l) (x :: t) [(k_tag, tag_of d); (k_api, Some ap); (k_system, Some sy)].
Proof.
  intros d c x t sy ap. destruct (dset_cons (dset leqb (x :: t) k_system sy) k_api ap) as (z & u & E). rewrite E.
  destruct (tag_fin d c z u) as (y & l & R & G). exists y, l. split; [exact R|]. intro k. rewrite G, <- E.
  unfold at_. rewrite !(dget_dset leqb decides_leqb). cbn [find fst].
  rewrite (leqb_sym k k_api), (leqb_sym k k_system).
  destruct (leqb k_tag k) eqn:T.
  - apply leqb_eq in T. subst k. change (leqb k_api k_tag) with false. change (leqb k_system k_tag) with false. cbv iota.
    destruct (tag_of d); reflexivity.
  - destruct (leqb k_api k); [reflexivity|]. destruct (leqb k_system k); reflexivity.
Qed.

Ltac rw_tag Q := match type of Q with ?L = _ => match goal with |- context [req_tag ?d ?X] =>
  change (req_tag d X) with L; rewrite Q end end.

(** *** C68: a request to a layer *)
Theorem api_layer : forall ns sub dec h line d s nd a,
  a_open h = true -> line <> [] -> dec line = inl (JObj d) ->
  system_of ns d = Some (JStr s) -> s <> [] -> at_ ns (upper s) = Some nd ->
  at_ d k_api = Some (JStr a) -> a <> [] -> a <> k_node -> In a (n_apis nd) ->
  exists args, args_of d args /\
    let h' := handle_line ns sub dec h line in
    a_open h' = true /\ a_calls h' = a_calls h + 1 /\
    match sub (a_calls h) (upper s) a (type_of d) (tag_of d) args with
    | SRet (Some (x :: r)) => exists ret, a_sent h' = a_sent h ++ [ret] /\
        reply_is ret (x :: r) [(k_tag, tag_of d); (k_api, Some (JStr a)); (k_system, Some (JStr s))]
    | SExn t => exists ret, a_sent h' = a_sent h ++ [ret] /\
        reply_is ret [(k_error, t_exc); (k_exception, JStr t)]
                     [(k_tag, tag_of d); (k_api, Some (JStr a)); (k_system, Some (JStr s))]
    | SRet _ => a_sent h' = a_sent h
    end.
Proof.
  intros ns sub dec h line d s nd a O L E S SN ND A AE AN AI.
  destruct (req_split ns sub (a_calls h) d k_api (JStr a) A ltac:(discriminate)) as (args & AR & RQ).
  exists args. split; [exact AR|]. cbv zeta. rewrite (line_req ns sub dec h line d O L E), RQ. clear RQ.
  unfold req_core. rewrite S, A. destruct s as [|s0 s]; [contradiction SN; reflexivity|].
  destruct a as [|a0 a]; [contradiction AE; reflexivity|]. cbn [jtrue negb].
  change (dget leqb ns (upper (s0 :: s))) with (at_ ns (upper (s0 :: s))). rewrite ND.
  unfold node_api, is_str. replace (leqb (a0 :: a) k_node) with false.
  2: { symmetry. destruct (leqb (a0 :: a) k_node) eqn:Q; [apply leqb_eq in Q; contradiction | reflexivity]. }
  cbn [hashable negb]. replace (existsb (leqb (a0 :: a)) (n_apis nd)) with true.
  2: { symmetry. apply existsb_exists. exists (a0 :: a). split; [exact AI | apply leqb_eq; reflexivity]. }
  destruct (sub (a_calls h) (upper (s0 :: s)) (a0 :: a) (type_of d) (tag_of d) args) as [[[|x r]|]|t]; cbn [bind].
  - unfold req_tag. cbn [fst snd bind a_open a_calls a_sent send_if]. auto.
  - destruct (echo_fin d (a_calls h + 1) x r (JStr (s0 :: s)) (JStr (a0 :: a))) as (y & l & Q & G). rw_tag Q.
    cbn [a_open a_calls a_sent send_if]. split; [reflexivity|]. split; [reflexivity|]. exists (y :: l). auto.
  - unfold req_tag. cbn [fst snd bind a_open a_calls a_sent send_if]. auto.
  - destruct (echo_fin d (a_calls h + 1) (k_error, t_exc) [(k_exception, JStr t)] (JStr (s0 :: s)) (JStr (a0 :: a))) as (y & l & Q & G). rw_tag Q.
    cbn [a_open a_calls a_sent send_if]. split; [reflexivity|]. split; [reflexivity|]. exists (y :: l). auto.
Qed.
Print Assumptions api_layer.

(** *** C68: requests the server answers itself *)
(** [h'] has sent one more reply, called no layer, and goes on. *)
Definition replied (h h' : handler) (r : jdict) (l : list (list Z * option json)) : Prop :=
  a_open h' = true /\ a_calls h' = a_calls h /\ exists ret, a_sent h' = a_sent h ++ [ret] /\ reply_is ret r l.
Lemma replied_tag : forall h d x t ns sub dec line, a_open h = true -> line <> [] -> dec line = inl (JObj d) ->
  (exists k, at_ d k <> None /\ k <> k_tag) ->
  (forall args, args_of d args -> req_core ns sub (a_calls h) d args = (a_calls h, Ok (Some (x :: t)))) ->
  replied h (handle_line ns sub dec h line) (x :: t) [(k_tag, tag_of d)].
Proof.
  intros h d x t ns sub dec line O L E (k & K & NK) R. destruct (at_ d k) as [v|] eqn:K'; [|contradiction K; reflexivity]. clear K. rename K' into K.
  destruct (req_split ns sub (a_calls h) d k v K NK) as (args & AR & RQ).
  rewrite (line_req ns sub dec h line d O L E), RQ, (R _ AR).
  destruct (tag_fin d (a_calls h) x t) as (y & l & Q & G). rw_tag Q. unfold replied. cbn [a_open a_calls a_sent send_if].
  split; [reflexivity|]. split; [reflexivity|]. exists (y :: l). split; [reflexivity|]. intro k'. rewrite G. cbn [find fst].
  destruct (leqb k_tag k'); [|reflexivity]. destruct (tag_of d); reflexivity.
Qed.
(** A line that is no JSON: an error reply, nothing else happens. *)
Theorem api_parse_error : forall ns sub dec h line e,
  a_open h = true -> line <> [] -> dec line = inr e ->
  replied h (handle_line ns sub dec h line) [(k_error, t_parse); (k_exception, JStr e)] [].
Proof.
  intros ns sub dec h line e O L E. unfold handle_line. rewrite O. cbn [negb].
  destruct line as [|c line]; [contradiction L; reflexivity|]. rewrite E.
  unfold replied. cbn [a_open a_calls a_sent send_if]. split; [reflexivity|]. split; [reflexivity|].
  eexists. split; [reflexivity|]. intro k. cbn [find]. unfold at_. cbn [dget].
  destruct (leqb k k_exception) eqn:A, (leqb k k_error) eqn:B; auto.
  apply leqb_eq in A, B. subst. discriminate B.
Qed.
Print Assumptions api_parse_error.
(** A request with nothing but perhaps a tag: all systems and their APIs. *)
Theorem api_list : forall ns sub dec h line d,
  a_open h = true -> line <> [] -> dec line = inl (JObj d) -> ns <> [] ->
  (forall k, k <> k_tag -> at_ d k = None) ->
  replied h (handle_line ns sub dec h line)
    (map (fun x => (fst x, JList (map JStr (n_apis (snd x))))) ns) [(k_tag, tag_of d)].
Proof.
  intros ns sub dec h line d O L E NS ONLY. rewrite (line_req ns sub dec h line d O L E).
  assert (D : ddel leqb d k_tag = []).
  { destruct (ddel leqb d k_tag) as [|[k v] q] eqn:D; [reflexivity|]. exfalso.
    assert (X : at_ (ddel leqb d k_tag) k = Some v).
    { rewrite D. unfold at_. cbn [dget]. replace (leqb k k) with true by (symmetry; apply leqb_eq; reflexivity). reflexivity. }
    unfold at_ in X. rewrite (dget_ddel leqb decides_leqb) in X. destruct (leqb k k_tag) eqn:Q; [discriminate X|].
    assert (k <> k_tag) by (intros ->; discriminate Q). pose proof (ONLY k H) as Y. unfold at_ in Y. congruence. }
  destruct ns as [|n0 ns]; [contradiction NS; reflexivity|]. set (nn := n0 :: ns).
  set (x := (fst n0, JList (map JStr (n_apis (snd n0))))).
  set (t := map (fun x : list Z * anode => (fst x, JList (map JStr (n_apis (snd x))))) ns).
  assert (HR : handle_req nn sub (a_calls h) d = req_tag d (a_calls h, Ok (Some (x :: t)))).
  { unfold handle_req, jpop, req_tag. rewrite D, notnull_tag. reflexivity. }
  destruct (tag_fin d (a_calls h) x t) as (y & l & Q & G). rewrite HR, Q. cbn [map nn]. fold x t. unfold replied. cbn [a_open a_calls a_sent send_if].
  split; [reflexivity|]. split; [reflexivity|]. exists (y :: l). split; [reflexivity|]. intro k. rewrite G. cbn [find fst].
  destruct (leqb k_tag k); [|reflexivity]. destruct (tag_of d); reflexivity.
Qed.
Print Assumptions api_list.
(** A key other than the tag. *)
Definition asks_something (d : jdict) : Prop := exists k, at_ d k <> None /\ k <> k_tag.
Definition falsy (o : option json) : Prop := o = None \/ exists j, o = Some j /\ jtrue j = false.
(** Requests the server answers itself: the reply, and what is put in. *)
Inductive own (ns : nodes) (d : jdict) : jdict -> list (list Z * option json) -> Prop :=
| own_nosys : asks_something d -> falsy (system_of ns d) -> own ns d [(k_error, t_nosys)] []
| own_noapi : forall s, asks_something d -> system_of ns d = Some (JStr s) -> s <> [] ->
    falsy (at_ d k_api) -> own ns d [(k_error, t_noapi)] []
| own_unksys : forall s a, system_of ns d = Some (JStr s) -> s <> [] ->
    at_ d k_api = Some a -> jtrue a = true -> at_ ns (upper s) = None ->
    own ns d [(k_system, JStr s); (k_error, t_unksys)] []
| own_unkapi : forall s nd a, system_of ns d = Some (JStr s) -> s <> [] -> at_ ns (upper s) = Some nd ->
    at_ d k_api = Some a -> jtrue a = true -> a <> JStr k_node ->
    (forall l, a <> JList l) -> (forall l, a <> JObj l) -> (forall t, a = JStr t -> ~ In t (n_apis nd)) ->
    own ns d [(k_error, t_unkapi)] [(k_api, Some a); (k_system, Some (JStr s))]
| own_nodeop : forall s nd, system_of ns d = Some (JStr s) -> s <> [] -> at_ ns (upper s) = Some nd ->
    at_ d k_api = Some (JStr k_node) -> type_of d <> JStr k_get ->
    own ns d [(k_error, t_nodeop); (k_type, type_of d)] [(k_api, Some (JStr k_node)); (k_system, Some (JStr s))]
| own_nodeget : forall s nd l, system_of ns d = Some (JStr s) -> s <> [] -> at_ ns (upper s) = Some nd ->
    at_ d k_api = Some (JStr k_node) -> type_of d = JStr k_get -> n_db nd = map Some l ->
    own ns d [(k_nodenames, JList l)] [(k_api, Some (JStr k_node)); (k_system, Some (JStr s))].
Lemma all_api_some : forall l, all_api (map Some l) = Ok l.
Proof. induction l as [|x l IH]; [reflexivity|]. cbn [map all_api]. rewrite IH. reflexivity. Qed.
Theorem api_own : forall ns sub dec h line d r l,
  a_open h = true -> line <> [] -> dec line = inl (JObj d) -> own ns d r l ->
  replied h (handle_line ns sub dec h line) r ((k_tag, tag_of d) :: l).
Proof.
  intros ns sub dec h line d r l O L E W.
  assert (ECHO : forall x t sy ap,
    (exists k, at_ d k <> None /\ k <> k_tag) ->
    (forall args, req_core ns sub (a_calls h) d args = (a_calls h, Ok (Some (dset leqb (dset leqb (x :: t) k_system sy) k_api ap)))) ->
    replied h (handle_line ns sub dec h line) (x :: t) [(k_tag, tag_of d); (k_api, Some ap); (k_system, Some sy)]).
  { intros x t sy ap (k & K & NK) R. destruct (at_ d k) as [v|] eqn:K'; [|contradiction K; reflexivity].
    destruct (req_split ns sub (a_calls h) d k v K' NK) as (args & AR & RQ).
    rewrite (line_req ns sub dec h line d O L E), RQ, R.
    destruct (echo_fin d (a_calls h) x t sy ap) as (y & u & Q & G). rw_tag Q. unfold replied. cbn [a_open a_calls a_sent send_if].
    split; [reflexivity|]. split; [reflexivity|]. exists (y :: u). auto. }
  assert (API : forall a, at_ d k_api = Some a -> exists k, at_ d k <> None /\ k <> k_tag).
  { intros a A. exists k_api. split; [congruence | discriminate]. }
  destruct W as [AS F|s AS S SN F|s a S SN A AT N|s nd a S SN N A AT A1 A2 A3 A4|s nd S SN N A T|s nd lst S SN N A T D].
  - apply replied_tag; auto. intros args _. unfold req_core.
    destruct F as [-> | (j & -> & J)]; [reflexivity|]. rewrite J. cbn [negb]. reflexivity.
  - apply replied_tag; auto. intros args _. unfold req_core. rewrite S. destruct s as [|s0 s]; [contradiction SN; reflexivity|].
    cbn [jtrue negb]. destruct F as [-> | (j & -> & J)]; [reflexivity|]. rewrite J. reflexivity.
  - apply replied_tag; auto; [apply (API a A)|]. intros args _. unfold req_core. rewrite S, A. destruct s as [|s0 s]; [contradiction SN; reflexivity|].
    cbn [jtrue negb]. rewrite AT. cbn [negb]. unfold at_ in N. rewrite N. reflexivity.
  - set (SY := JStr s) in *.
    assert (R : forall args, req_core ns sub (a_calls h) d args =
      (a_calls h, Ok (Some (dset leqb (dset leqb [(k_error, t_unkapi); (k_api, a)] k_system SY) k_api a)))).
    { intro args. unfold req_core. rewrite S, A. unfold SY. destruct s as [|s0 s]; [contradiction SN; reflexivity|].
      cbn [jtrue negb]. rewrite AT. cbn [negb]. unfold at_ in N. rewrite N. unfold node_api.
      replace (is_str a k_node) with false.
      2: { symmetry. destruct a; try reflexivity. cbn [is_str]. destruct (leqb s1 k_node) eqn:Q; [|reflexivity].
           apply leqb_eq in Q. subst. contradiction A1. reflexivity. }
      replace (hashable a) with true by (symmetry; destruct a; try reflexivity; [contradiction (A2 l) | contradiction (A3 d0)]; reflexivity).
      cbn [negb]. destruct a as [ | | |t0| | ]; try reflexivity.
      replace (existsb (leqb t0) (n_apis nd)) with false; [reflexivity|]. symmetry.
      destruct (existsb (leqb t0) (n_apis nd)) eqn:Q; [|reflexivity]. exfalso. apply existsb_exists in Q as (z & I1 & I2).
      apply leqb_eq in I2. subst z. exact (A4 t0 eq_refl I1). }
    destruct (ECHO _ _ _ _ (API a A) R) as (X1 & X2 & ret & X3 & X4).
    split; [exact X1|]. split; [exact X2|]. exists ret. split; [exact X3|]. intro k. rewrite X4. cbn [find fst].
    destruct (leqb k_tag k) eqn:TK; [|destruct (leqb k_api k) eqn:AK; [reflexivity|destruct (leqb k_system k); [reflexivity|]]].
    + apply leqb_eq in TK. subst k. destruct (tag_of d); reflexivity.
    + unfold at_. cbn [dget]. rewrite (leqb_sym k k_api), AK. destruct (leqb k k_error); reflexivity.
  - apply ECHO; [apply (API _ A)|]. intro args. unfold req_core. rewrite S, A. destruct s as [|s0 s]; [contradiction SN; reflexivity|].
    cbn [jtrue negb]. unfold at_ in N. rewrite N. unfold node_api. change (is_str (JStr k_node) k_node) with true. cbv iota.
    replace (is_str (type_of d) k_get) with false; [reflexivity|]. symmetry.
    destruct (type_of d) as [ | | |t| | ]; try reflexivity. cbn [is_str]. destruct (leqb t k_get) eqn:Q; [|reflexivity].
    apply leqb_eq in Q. subst. contradiction T. reflexivity.
  - apply ECHO; [apply (API _ A)|]. intro args. unfold req_core. rewrite S, A. destruct s as [|s0 s]; [contradiction SN; reflexivity|].
    cbn [jtrue negb]. unfold at_ in N. rewrite N. unfold node_api. change (is_str (JStr k_node) k_node) with true. cbv iota.
    rewrite T. change (is_str (JStr k_get) k_get) with true. cbv iota. rewrite D, all_api_some. reflexivity.
Qed.
Print Assumptions api_own.

(** *** C68: when the server hangs up *)
(** An empty line, JSON that is no object, a system that is no string, an API
    that is a list or an object, and asking for the nodes of a system that has
    loop nodes. *)
Definition hangs_up (ns : nodes) (h : handler) (dec : list Z -> json + list Z) (line : list Z) : Prop :=
  line = [] \/
  (exists j, dec line = inl j /\ (forall d, j <> JObj d) /\ (j <> JStr k_bad \/ a_ret h = None)) \/
  (exists d, dec line = inl (JObj d) /\ asks_something d /\
     ((exists j, system_of ns d = Some j /\ jtrue j = true /\ forall s, j <> JStr s) \/
      (exists s nd, system_of ns d = Some (JStr s) /\ s <> [] /\ at_ ns (upper s) = Some nd /\
         ((exists l, at_ d k_api = Some (JList l) /\ l <> []) \/ (exists l, at_ d k_api = Some (JObj l) /\ l <> []) \/
          (at_ d k_api = Some (JStr k_node) /\ type_of d = JStr k_get /\ In None (n_db nd)))))).
Lemma all_api_err : forall l, (exists r, all_api l = Ok r) \/ (In None l /\ all_api l = Err EName).
Proof.
  induction l as [|[j|] l IH]; cbn [all_api In].
  - left. eauto.
  - destruct IH as [(r & ->) | [I ->]]; [left; cbn [bind]; eauto | right; cbn [bind]; auto].
  - right. auto.
Qed.
Theorem api_open : forall ns sub dec h line, a_open h = true ->
  (a_open (handle_line ns sub dec h line) = false <-> hangs_up ns h dec line).
Proof.
  intros ns sub dec h line O. unfold hangs_up.
  destruct line as [|c line].
  { unfold handle_line. rewrite O. cbn [negb a_open]. tauto. }
  assert (L : c :: line <> []) by discriminate.
  destruct (dec (c :: line)) as [j|e] eqn:E.
  2: { unfold handle_line. rewrite O, E. cbn [negb a_open]. split; [discriminate|].
       intros [X | [(j & X & _) | (d & X & _)]]; discriminate X. }
  assert (NONOBJ : (forall d, j <> JObj d) -> (a_open (handle_line ns sub dec h (c :: line)) = false <-> (j <> JStr k_bad \/ a_ret h = None))).
  { intro NO. unfold handle_line. rewrite O, E. cbn [negb]. destruct j as [ | | |s| |d]; try (cbn [a_open]; split; [left; discriminate | reflexivity]).
    - destruct (leqb s k_bad) eqn:B.
      + apply leqb_eq in B. subst s. destruct (a_ret h); cbn [a_open].
        * split; [discriminate|]. intros [X | X]; [contradiction X; reflexivity | discriminate X].
        * split; [right; reflexivity | reflexivity].
      + cbn [a_open]. split; [|reflexivity]. intros _. left. intro X. injection X as ->. assert (leqb k_bad k_bad = true) by (apply leqb_eq; reflexivity). congruence.
    - contradiction (NO d). reflexivity. }
  destruct j as [ |b|n|s|l|d];
    try (rewrite NONOBJ by discriminate; split;
      [intro X; right; left; eexists; split; [reflexivity|]; split; [discriminate | exact X] |
       intros [X | [(j & X & _ & Y) | (d & X & _)]]; [discriminate X | injection X as <-; exact Y | discriminate X]]; fail).
  clear NONOBJ. rewrite (line_req ns sub dec h (c :: line) d O L E).
  transitivity (asks_something d /\
     ((exists j, system_of ns d = Some j /\ jtrue j = true /\ forall s, j <> JStr s) \/
      (exists s nd, system_of ns d = Some (JStr s) /\ s <> [] /\ at_ ns (upper s) = Some nd /\
         ((exists l, at_ d k_api = Some (JList l) /\ l <> []) \/ (exists l, at_ d k_api = Some (JObj l) /\ l <> []) \/
          (at_ d k_api = Some (JStr k_node) /\ type_of d = JStr k_get /\ In None (n_db nd)))))).
  2: { split.
       - intros [A B]. right. right. exists d. auto.
       - intros [X | [(j & X & Y & _) | (d' & X & A & B)]]; [discriminate X | injection X as <-; contradiction (Y d); reflexivity |].
         injection X as <-. auto. }
  destruct (ddel leqb d k_tag) as [|[k v] q] eqn:D.
  - assert (NA : ~ asks_something d).
    { intros (k & K & NK). apply K. unfold at_. rewrite <- (dget_ddel_other leqb decides_leqb d k_tag k) by exact NK. rewrite D. reflexivity. }
    unfold handle_req, jpop. rewrite D. cbn [bind].
    split; [|intros [X _]; contradiction]. destruct (map _ ns) as [|x l]; [discriminate|]. destruct (notnull _); discriminate.
  - assert (K : at_ d k = Some v /\ k <> k_tag).
    { assert (X : at_ (ddel leqb d k_tag) k = Some v).
      { rewrite D. unfold at_. cbn [dget]. replace (leqb k k) with true by (symmetry; apply leqb_eq; reflexivity). reflexivity. }
      unfold at_ in X. rewrite (dget_ddel leqb decides_leqb) in X. destruct (leqb k k_tag) eqn:Q; [discriminate X|].
      split; [exact X|]. intros ->. discriminate Q. }
    destruct K as [K NK].
    assert (AS : asks_something d) by (exists k; split; [congruence | exact NK]).
    destruct (req_split ns sub (a_calls h) d k v K NK) as (args & AR & RQ). rewrite RQ. clear D q RQ K NK.
    assert (OP : forall z, a_open (let '(c0, r) := req_tag d z in
      match r with
      | Ok ret => mkH (a_pending h) (Some ret) true c0 (send_if ret (a_sent h))
      | Err _ => mkH (a_pending h) (a_ret h) false c0 (a_sent h)
      end) = match snd z with Ok _ => true | Err _ => false end).
    { intros [cc [o|x]]; unfold req_tag; cbn [fst snd bind]; [|reflexivity]. destruct o as [[|y t]|]; try reflexivity. destruct (tag_of d); reflexivity. }
    rewrite OP. clear OP. unfold req_core.
    destruct (system_of ns d) as [sy|] eqn:S.
    2: { cbn [jtrue negb snd]. split; [discriminate|]. intros [_ [(j & X & _) | (s & nd & X & _)]]; discriminate X. }
    destruct (jtrue sy) eqn:JT.
    2: { cbn [negb snd]. split; [discriminate|]. intros [_ [(j & X & Y & _) | (s & nd & X & Y & _)]]; injection X as ->; [congruence|].
         destruct s; [contradiction Y; reflexivity | discriminate JT]. }
    assert (NS : (forall s, sy <> JStr s) -> match snd (match sy with JStr s => 
        (a_calls h, Ok (@None jdict)) | _ => (a_calls h, Err EAttr) end) with Ok _ => true | Err _ => false end = false).
    { intro X. destruct sy; try reflexivity. contradiction (X s). reflexivity. }
    destruct sy as [ | b|n|s|l|o];
      try (cbn [snd]; split; [intros _; split; [exact AS|]; left; eexists; split; [reflexivity|]; split; [exact JT | discriminate] | reflexivity]; fail).
    clear NS. assert (SN : s <> []) by (intros ->; discriminate JT). cbn [negb].
    assert (RHS : forall P : Prop, (P <-> exists nd, at_ ns (upper s) = Some nd /\
         ((exists l, at_ d k_api = Some (JList l) /\ l <> []) \/ (exists l, at_ d k_api = Some (JObj l) /\ l <> []) \/
          (at_ d k_api = Some (JStr k_node) /\ type_of d = JStr k_get /\ In None (n_db nd)))) ->
      (P <-> asks_something d /\
     ((exists j, Some (JStr s) = Some j /\ jtrue j = true /\ forall s, j <> JStr s) \/
      (exists s0 nd, Some (JStr s) = Some (JStr s0) /\ s0 <> [] /\ at_ ns (upper s0) = Some nd /\
         ((exists l, at_ d k_api = Some (JList l) /\ l <> []) \/ (exists l, at_ d k_api = Some (JObj l) /\ l <> []) \/
          (at_ d k_api = Some (JStr k_node) /\ type_of d = JStr k_get /\ In None (n_db nd))))))).
    { intros P HP. rewrite HP. split.
      - intros (nd & N & X). split; [exact AS|]. right. exists s, nd. auto.
      - intros [_ [(j & X & _ & Y) | (s0 & nd & X & _ & N & Y)]]; injection X as <-; [contradiction (Y s); reflexivity|]. eauto. }
    apply RHS. clear RHS. change (dget leqb ns (upper s)) with (at_ ns (upper s)).
    destruct (at_ d k_api) as [a|] eqn:A.
    2: { cbn [jtrue negb snd]. split; [discriminate|]. intros (nd & _ & [(l & X & _) | [(l & X & _) | (X & _)]]); discriminate X. }
    destruct (jtrue a) eqn:JA.
    2: { cbn [negb snd]. split; [discriminate|].
         intros (nd & _ & [(l & X & Y) | [(l & X & Y) | (X & _)]]); injection X as ->; try discriminate JA; destruct l; [contradiction Y; reflexivity | discriminate JA | contradiction Y; reflexivity | discriminate JA]. }
    cbn [negb]. destruct (at_ ns (upper s)) as [nd|] eqn:N.
    2: { cbn [snd]. split; [discriminate|]. intros (nd & X & _). discriminate X. }
    assert (BD : forall (z : Z * res (option jdict)), match snd (let '(c0, r) := z in (c0, let* o := r in match o with Some (x :: t) => Ok (Some (dset leqb (dset leqb (x :: t) k_system (JStr s)) k_api a)) | _ => Ok o end)) with Ok _ => true | Err _ => false end =
      match snd z with Ok _ => true | Err _ => false end).
    { intros [cc [o|x]]; [|reflexivity]. cbn [snd bind]. destruct o as [[|y t]|]; reflexivity. }
    rewrite BD. clear BD. unfold node_api.
    destruct (is_str a k_node) eqn:IN.
    + destruct a as [ | | |t| | ]; try discriminate IN. cbn [is_str] in IN. apply leqb_eq in IN. subst t.
      destruct (is_str (type_of d) k_get) eqn:IG.
      * destruct (type_of d) as [ | | |t| | ] eqn:TY; try discriminate IG. cbn [is_str] in IG. apply leqb_eq in IG. subst t.
        cbn [snd]. destruct (all_api_err (n_db nd)) as [(r & R) | [R1 R2]].
        -- rewrite R. cbn [bind]. split; [discriminate|].
           intros (nd' & X & [(l & Y & _) | [(l & Y & _) | (_ & _ & Y)]]); [discriminate Y | discriminate Y|].
           injection X as <-. exfalso. clear - R Y. revert r R. induction (n_db nd) as [|[j|] l IH]; intros r R; cbn [all_api] in R; [destruct Y | | discriminate R].
           destruct Y as [Y | Y]; [discriminate Y|]. destruct (all_api l) as [r'|x]; [|discriminate R]. exact (IH Y r' eq_refl).
        -- rewrite R2. cbn [bind]. split; [intros _|reflexivity]. exists nd. split; [reflexivity|]. right. right. auto.
      * cbn [snd]. split; [discriminate|]. intros (nd' & X & [(l & Y & _) | [(l & Y & _) | (_ & Y & _)]]); [discriminate Y | discriminate Y|].
        rewrite Y in IG. discriminate IG.
    + destruct (hashable a) eqn:HA; cbn [negb].
      * match goal with |- ?X = false <-> _ => assert (OKK : X = true) end.
        { destruct a as [ | | |t| | ]; try reflexivity. destruct (existsb (leqb t) (n_apis nd)); [|reflexivity]. cbn [snd].
          destruct (sub _ _ _ _ _ _); reflexivity. }
        rewrite OKK. split; [discriminate|].
        intros (nd' & X & [(l & Y & _) | [(l & Y & _) | (Y & _)]]); injection Y as ->; try discriminate HA. 
        exfalso. cbn [is_str] in IN. assert (leqb k_node k_node = true) by (apply leqb_eq; reflexivity). congruence.
      * cbn [snd]. split; [intros _|reflexivity]. exists nd. split; [reflexivity|].
        destruct a as [ | | | |l|l]; try discriminate HA; [left | right; left]; exists l; split; try reflexivity; intros ->; discriminate JA.
Qed.
Print Assumptions api_open.

(** *** What a client would not expect *)
(** The JSON string "bad" (with its quotes, as a request) repeats the reply to
    the request before it. *)
Theorem api_bad_refuted : forall ns sub dec h line r, a_open h = true -> line <> [] ->
  dec line = inl (JStr k_bad) -> a_ret h = Some (Some r) -> r <> [] ->
  a_sent (handle_line ns sub dec h line) = a_sent h ++ [r].
Proof.
  intros ns sub dec h line r O L E R N. unfold handle_line. rewrite O. cbn [negb]. destruct line as [|c line]; [contradiction L; reflexivity|].
  rewrite E, R. change (leqb k_bad k_bad) with true. cbv iota. cbn [a_sent]. destruct r; [contradiction N; reflexivity | reflexivity].
Qed.
Print Assumptions api_bad_refuted.
(** A bridge may have a name with small letters; no request can reach it, even
    if it is the only system. *)
Theorem api_bridge_refuted : exists ns nd, ns = [([98; 114], nd)] /\
  forall sub dec h line d a, a_open h = true -> line <> [] -> dec line = inl (JObj d) ->
  (system_of ns d = Some (JStr [98; 114])) -> at_ d k_api = Some (JStr a) -> a <> [] ->
  replied h (handle_line ns sub dec h line) [(k_system, JStr [98; 114]); (k_error, t_unksys)] [(k_tag, tag_of d)].
Proof.
  exists [([98; 114], mkNode [] [[98]])], (mkNode [] [[98]]). split; [reflexivity|].
  intros sub dec h line d a O L E S A AN. apply api_own; auto.
  apply (own_unksys _ _ [98; 114] (JStr a)); auto; try discriminate. destruct a; [contradiction AN; reflexivity | reflexivity].
Qed.
Print Assumptions api_bridge_refuted.

(** *** C68: the words of the protocol *)
Definition chars (s : string) : list Z := map (fun a => Z.of_nat (nat_of_ascii a)) (list_ascii_of_string s).
(** The key of each item and the values with a meaning are these words, and the
    errors can be told apart. *)
Theorem api_words :
  [k_tag; k_system; k_api; k_type; k_get; k_node; k_error; k_exception; k_nodenames; k_bad] =
  map chars ["tag"; "system"; "api"; "type"; "get"; "node"; "error"; "exception"; "nodenames"; "bad"]%string /\
  NoDup [t_parse; t_nosys; t_noapi; t_unksys; t_nodeop; t_unkapi; t_exc].
Proof.
  split; [reflexivity|]. repeat (constructor; [intro I; cbn [In] in I; repeat (destruct I as [I|I]; [discriminate I|]); exact I|]). constructor.
Qed.
Print Assumptions api_words.
(** What counts as no system and no API: nothing, null, false, zero, and
    whatever is empty. *)
Theorem api_falsy : forall j, jtrue j = false <->
  In j [JNull; JBool false; JNum 0; JStr []; JList []; JObj []].
Proof.
  intro j. cbn [In]. destruct j as [ |b|n|[|c s]|[|x l]|[|x d]]; cbn [jtrue];
    try (split; intro H; [discriminate H | repeat (destruct H as [H|H]; [discriminate H|]); destruct H]; fail);
    try (split; intro; [tauto | reflexivity]; fail).
  - destruct b; [|split; intro; [tauto | reflexivity]]. split; intro H; [discriminate H|]. repeat (destruct H as [H|H]; [discriminate H|]); destruct H.
  - destruct (Z.eqb_spec n 0) as [-> | N]; cbn [negb]; [split; intro; [tauto | reflexivity]|]. split; intro H; [discriminate H|].
    destruct H as [H|[H|[H|[H|[H|[H|[]]]]]]]; try discriminate H. injection H as H. congruence.
Qed.
Print Assumptions api_falsy.
(** System names are found whatever the case of the letters, and nothing else
    is changed. *)
Theorem api_case : forall c, 0 <= c < 256 -> upper [c] =
  match index 0 (String (ascii_of_nat (Z.to_nat c)) EmptyString) "abcdefghijklmnopqrstuvwxyz"%string with
  | Some i => match get i "ABCDEFGHIJKLMNOPQRSTUVWXYZ"%string with Some a => [Z.of_nat (nat_of_ascii a)] | None => [] end
  | None => [c]
  end.
Proof.
  assert (H : forallb (fun n => let c := Z.of_nat n in leqb (upper [c])
    (match index 0 (String (ascii_of_nat (Z.to_nat c)) EmptyString) "abcdefghijklmnopqrstuvwxyz"%string with
     | Some i => match get i "ABCDEFGHIJKLMNOPQRSTUVWXYZ"%string with Some a => [Z.of_nat (nat_of_ascii a)] | None => [] end
     | None => [c]
     end)) (seq 0 256) = true) by (vm_compute; reflexivity).
  intros c R. rewrite forallb_forall in H. specialize (H (Z.to_nat c) ltac:(apply in_seq; lia)). cbv zeta in H.
  rewrite Z2Nat.id in H by lia. apply leqb_eq in H. exact H.
Qed.
Print Assumptions api_case.
(** When the client closes, the handler ends; what had come of a line is not
    taken for one, and nothing more is sent. *)
Theorem api_eof : forall ns sub dec chunks more,
  handler_run ns sub dec (chunks ++ [] :: more) =
  let h := handler_run ns sub dec chunks in mkH (a_pending h) (a_ret h) false (a_calls h) (a_sent h).
Proof.
  intros ns sub dec chunks more. unfold handler_run. rewrite fold_left_app. cbn [fold_left].
  set (h := fold_left (handler_recv ns sub dec) chunks handler0).
  assert (E : handler_recv ns sub dec h [] = mkH (a_pending h) (a_ret h) false (a_calls h) (a_sent h)).
  { unfold handler_recv. destruct h as [p r o c s]. destruct o; reflexivity. }
  rewrite E. cbv zeta. induction more as [|x more IH]; [reflexivity|]. cbn [fold_left]. exact IH.
Qed.
Print Assumptions api_eof.

(** Two requests, one with a tag, in three pieces; then a line that is no JSON. *)
Definition ex_dec (l : list Z) : json + list Z :=
  match l with
  | [1] => inl (JObj [(k_api, JStr [109]); (k_tag, JNum 5); ([120], JNum 9)])
  | [2; 2] => inl (JObj [(k_system, JStr [97]); (k_api, JStr k_node)])
  | _ => inr l
  end.
Definition ex_sub : layers := fun n _ _ t tag args => SRet (Some [([114], JNum n); (k_type, t); ([120], JObj args)]).
Definition ex_ns : nodes := [([65], mkNode [Some (JNum 1)] [[109]])].
Example api_example :
  a_sent (handler_run ex_ns ex_sub ex_dec [[1; 10; 2]; [2]; [10; 3; 10]]) =
  [ [([114], JNum 0); (k_type, JStr k_get); ([120], JObj [([120], JNum 9)]); (k_system, JStr [65]); (k_api, JStr [109]); (k_tag, JNum 5)];
    [(k_nodenames, JList [JNum 1]); (k_system, JStr [97]); (k_api, JStr k_node)];
    [(k_exception, JStr [3]); (k_error, t_parse)] ].
Proof. vm_compute. reflexivity. Qed.
(** The system is named as the request names it, or by its own name. *)
Example api_layer_example : exists d nd, ex_dec [1] = inl (JObj d) /\ system_of ex_ns d = Some (JStr [65]) /\
  at_ ex_ns (upper [65]) = Some nd /\ at_ d k_api = Some (JStr [109]) /\ In [109] (n_apis nd) /\ tag_of d = Some (JNum 5).
Proof. eexists. eexists. split; [reflexivity|]. repeat split. left. reflexivity. Qed.
