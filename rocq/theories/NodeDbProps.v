(** C70: the node database. *)
From Verif Require Import Base Dict AddrModel AddrProps NodeDbModel.
From Verif Require ApiModel.

(** *** What is meant *)
(** An argument that is a node address: a number, or its digits, with the area
    and a dot before them if need be. *)
Definition address (x : narg) (v : Z) : Prop :=
  match x with
  | AInt n => n = v
  | AStr s => exists nl, maybe_newline nl /\
      ((exists n, number n /\ s = n ++ nl /\ dval n <= 65535 /\ valid_node (dval n / 1024) (dval n mod 1024) /\ v = dval n) \/
       (exists a n, number a /\ number n /\ s = a ++ [46] ++ n ++ nl /\ valid_node (dval a) (dval n) /\ v = dval a * 1024 + dval n))
  end.
(** Node names: digits and capital letters, with at least one letter. *)
Definition capital (c : Z) : Prop := 65 <= c <= 90.
Definition name_ok (s : list Z) : Prop := Forall (fun c => digit c \/ capital c) s /\ Exists capital s.
(** A string is a name if it is so but for the case of its letters. *)
Definition named (s name : list Z) : Prop := Forall2 (fun a b => a = b \/ capital b /\ a = b + 32) s name.
(** The address a "node" entry of the configuration is for. *)
Definition home (area : Z) (c : centry) : Z := if c_id c <? 1024 then area * 1024 + c_id c else c_id c.
Definition config_ok (area : Z) (l : list centry) : Prop :=
  Forall (fun c => valid_id (c_id c) /\ c_id c <> 0 /\ name_ok (c_name c)) l /\
  NoDup (map c_name l) /\ NoDup (map (home area) l).
Definition my_area (phase rid : Z) : Z := if phase =? 4 then rid / 1024 else 0.

(** *** Lookups *)
Lemma decides_dest : decides dest_eqb.
Proof.
  intros [x|x] [y|y]; cbn [dest_eqb]; try (split; discriminate); split; intro H;
    try (apply Z.eqb_eq in H; subst; reflexivity); injection H as ->; apply Z.eqb_refl.
Qed.
Lemma nid_int : forall n a area, nodeid (NInt n None) false area = Ok a -> a = if n / 1024 =? 0 then area * 1024 + n else n.
Proof.
  intros n a area H. cbn [nodeid] in H. unfold nid_finish in H. destruct (_ || _ || _); [discriminate H|].
  assert (OK : forall x y : Z, Ok x = Ok y -> x = y) by congruence. apply OK in H. rewrite Z.shiftl_mul_pow2 in H by lia. change (2 ^ 10) with 1024 in H.
  pose proof (Z.div_mod n 1024 ltac:(lia)). destruct (Z.eqb_spec (n / 1024) 0); lia.
Qed.
Lemma nid_int0 : forall n a, nodeid (NInt n None) false 0 = Ok a -> a = n.
Proof. intros n a H. apply nid_int in H. destruct (n / 1024 =? 0); lia. Qed.
Lemma nid_str_err : forall s e, nodeid (NStr s) false 0 = Err e -> e = EValue.
Proof.
  intros s e. cbn [nodeid]. unfold nid_finish. destruct (nodeid_re s) as [[[a|] n]|]; [| |congruence];
    (destruct (_ || _ || _); [congruence | discriminate]).
Qed.
Lemma address_str : forall s v, address (AStr s) v <-> nodeid (NStr s) false 0 = Ok v.
Proof. intros s v. symmetry. apply nodeid_string. Qed.
Lemma lookup_address : forall d x v add, address x v -> nodeinfo d x add = by_id d v add.
Proof.
  intros d [s|n] v add A; unfold nodeinfo.
  - apply address_str in A. rewrite A. reflexivity.
  - cbn [address] in A. subst n. reflexivity.
Qed.
Lemma lookup_name : forall d s add, (forall v, ~ address (AStr s) v) ->
  nodeinfo d (AStr s) add = match dget leqb (d_name d) (upper s) with Some i => Ok (d, i) | None => Err EKey end.
Proof.
  intros d s add N. unfold nodeinfo. destruct (nodeid (NStr s) false 0) as [v|e] eqn:E.
  - exfalso. apply (N v), address_str, E.
  - rewrite (nid_str_err s e E). reflexivity.
Qed.
Lemma narg_cases : forall x, (exists v, address x v) \/ (exists s, x = AStr s /\ forall v, ~ address (AStr s) v).
Proof.
  intros [s|n]; [|left; exists n; reflexivity]. destruct (nodeid (NStr s) false 0) as [v|e] eqn:E.
  - left. exists v. apply address_str, E.
  - right. exists s. split; [reflexivity|]. intros v A. apply address_str in A. congruence.
Qed.
Lemma address_fun : forall x v w, address x v -> address x w -> v = w.
Proof.
  intros [s|n] v w A B.
  - apply address_str in A, B. congruence.
  - cbn [address] in A, B. congruence.
Qed.
Lemma address_valid : forall s v, address (AStr s) v -> valid_id v.
Proof. intros s v A. apply address_str in A. eapply nodeid_valid; [|exact A]. exact I. Qed.

(** *** The database stays in order *)
Definition idget (d : ndb) (k : dest) := dget dest_eqb (d_id d) k.
Definition nmget (d : ndb) (s : list Z) := dget leqb (d_name d) s.
Definition known (d : ndb) (i : ninfo) : Prop := (exists k, idget d k = Some i) \/ (exists s, nmget d s = Some i).
Record good (d : ndb) : Prop := mkGood {
  g_id : forall k i, idget d k = Some i -> get_dest i = k;
  g_nm : forall s i, nmget d s = Some i -> i_name i = s;
  g_lt : forall i, known d i -> 0 <= i_ref i < d_refs d;
  g_uq : forall i j, known d i -> known d j -> i_ref i = i_ref j -> i = j;
  g_nd : NoDup (dkeys (d_id d))
}.
Lemma good_ndb0 : good ndb0.
Proof.
  constructor; unfold known, idget, nmget, ndb0; cbn [d_id d_name dget]; try discriminate.
  - intros i [(k & X) | (s & X)]; discriminate X.
  - intros i j [(k & X) | (s & X)]; discriminate X.
  - constructor.
Qed.
(** Putting in a new object. *)
Lemma good_put : forall d i k (nm idd : bool), good d -> i_ref i = d_refs d -> get_dest i = k -> 0 <= d_refs d ->
  good (mkDb (if nm then dset leqb (d_name d) (i_name i) i else d_name d) (if idd then dset dest_eqb (d_id d) k i else d_id d) (d_refs d + 1)).
Proof.
  intros d i k nm idd G R K P.
  set (d1 := mkDb _ _ _).
  assert (KN : forall j, known d1 j -> known d j \/ j = i).
  { intros j [(q & X) | (s & X)]; unfold idget, nmget, d1 in X; cbn [d_id d_name] in X.
    - destruct idd; [|left; left; exists q; exact X]. rewrite (dget_dset dest_eqb decides_dest) in X.
      destruct (dest_eqb q k); [right; congruence | left; left; exists q; exact X].
    - destruct nm; [|left; right; exists s; exact X]. rewrite (dget_dset leqb decides_leqb) in X.
      destruct (leqb s (i_name i)); [right; congruence | left; right; exists s; exact X]. }
  constructor.
  - intros q j X. unfold idget, d1 in X. cbn [d_id] in X. destruct idd; [|apply (g_id d G), X].
    rewrite (dget_dset dest_eqb decides_dest) in X. destruct (dest_eqb q k) eqn:Q; [|apply (g_id d G), X].
    apply decides_dest in Q. congruence.
  - intros s j X. unfold nmget, d1 in X. cbn [d_name] in X. destruct nm; [|apply (g_nm d G), X].
    rewrite (dget_dset leqb decides_leqb) in X. destruct (leqb s (i_name i)) eqn:Q; [|apply (g_nm d G), X].
    apply leqb_eq in Q. congruence.
  - intros j X. unfold d1. cbn [d_refs]. destruct (KN j X) as [Y | ->]; [|lia]. pose proof (g_lt d G j Y). lia.
  - intros j1 j2 X1 X2 E. destruct (KN j1 X1) as [Y1 | ->], (KN j2 X2) as [Y2 | ->]; auto.
    + apply (g_uq d G); auto.
    + pose proof (g_lt d G j1 Y1). lia.
    + pose proof (g_lt d G j2 Y2). lia.
  - unfold d1. cbn [d_id]. destruct idd; [apply (NoDup_dset dest_eqb decides_dest)|]; apply (g_nd d G).
Qed.
(** A lookup by address finds what is there, or makes a new entry. *)
Lemma by_id_cases : forall d v add d1 o, by_id d v add = Ok (d1, o) ->
  (idget d (DNode v) = Some o /\ d1 = d) \/
  (idget d (DNode v) = None /\ o = mkI (d_refs d) v [] None None None /\
   d1 = mkDb (d_name d) (if add then dset dest_eqb (d_id d) (DNode v) o else d_id d) (d_refs d + 1)).
Proof.
  intros d v add d1 o H. unfold by_id in H. unfold idget. destruct (dget dest_eqb (d_id d) (DNode v)) as [i|].
  - injection H as <- <-. left. auto.
  - right. destruct (nodeid (NInt v None) false 0) as [a|e] eqn:E; [|discriminate H]. cbn [bind] in H.
    apply nid_int0 in E. subst a. injection H as <- <-. auto.
Qed.
Lemma nodeinfo_cases : forall d x add d1 o, nodeinfo d x add = Ok (d1, o) ->
  (known d o /\ d1 = d) \/
  (exists v, address x v /\ idget d (DNode v) = None /\ o = mkI (d_refs d) v [] None None None /\
   d1 = mkDb (d_name d) (if add then dset dest_eqb (d_id d) (DNode v) o else d_id d) (d_refs d + 1)).
Proof.
  intros d x add d1 o H. destruct (narg_cases x) as [(v & A) | (s & -> & A)].
  - rewrite (lookup_address d x v add A) in H. destruct (by_id_cases _ _ _ _ _ H) as [[K ->] | (N & E1 & E2)].
    + left. split; [left; eauto | reflexivity].
    + right. exists v. auto.
  - rewrite (lookup_name d s add A) in H. left. destruct (dget leqb (d_name d) (upper s)) as [i|] eqn:E; [|discriminate H].
    injection H as <- <-. split; [right; exists (upper s); exact E | reflexivity].
Qed.
Definition fine (d : ndb) : Prop := good d /\ 0 <= d_refs d.
Lemma fine_nodeinfo : forall d x add d1 o, fine d -> nodeinfo d x add = Ok (d1, o) -> fine d1.
Proof.
  intros d x add d1 o [G P] H. destruct (nodeinfo_cases _ _ _ _ _ H) as [[_ ->] | (v & _ & _ & -> & ->)]; [split; assumption|].
  split; [|cbn [d_refs]; lia]. apply (good_put d (mkI (d_refs d) v [] None None None) (DNode v) false add); auto.
Qed.
Lemma fine_loop : forall d n c, fine d -> fine (add_loop d n c).
Proof.
  intros d n c [G P]. split; [|unfold add_loop; cbn [d_refs]; lia].
  apply (good_put d (mkI (d_refs d) 0 (upper n) (Some c) None None) (DCirc c) true true); auto.
Qed.
Lemma fine_config : forall area d c d1, fine d -> add_config area d c = Ok d1 -> fine d1.
Proof.
  intros area d c d1 [G P] H. unfold add_config in H. destruct (nodeid _ _ _) as [a|e]; [|discriminate H]. cbn [bind] in H.
  injection H as <-. split; [|cbn [d_refs]; lia].
  apply (good_put d (mkI (d_refs d) a (c_name c) None (verif (c_over c)) (verif (c_iver c))) (DNode a) true true); auto.
Qed.
Lemma fine_configs : forall area l d d1, fine d -> add_configs area d l = Ok d1 -> fine d1.
Proof.
  intros area. induction l as [|c l IH]; intros d d1 F H; cbn [add_configs] in H; [congruence|].
  destruct (add_config area d c) as [d2|e] eqn:E; [|discriminate H]. cbn [bind] in H. apply (IH d2); [|exact H].
  eapply fine_config; eauto.
Qed.
Lemma connect_cases : forall d me x d1 o k, connect_dest d me x = Ok (d1, o, k) ->
  k = get_dest o /\ exists y, nodeinfo d y true = Ok (d1, o) /\ (y = x \/ y = AInt me /\ address x 0).
Proof.
  intros d me x d1 o k H. unfold connect_dest in H. cbv zeta in H.
  set (z := match match x with AStr s => _ | AInt n => _ end with Ok v => v =? 0 | Err _ => false end) in H.
  destruct (nodeinfo d (if z then AInt me else x) true) as [[d2 i]|e] eqn:E; [|discriminate H]. cbn [bind] in H.
  injection H as <- <- <-. split; [reflexivity|]. exists (if z then AInt me else x). split; [exact E|].
  destruct z eqn:Z; [right | left; reflexivity]. split; [reflexivity|]. unfold z in Z. clear - Z. destruct x as [s|n].
  - apply address_str. destruct (nodeid (NStr s) false 0) as [v|e]; [|discriminate Z]. apply Z.eqb_eq in Z. subst. reflexivity.
  - destruct (nodeid (NInt n None) false 0) as [v|e] eqn:E; [|discriminate Z]. apply Z.eqb_eq in Z. subst v. apply nid_int0 in E. cbn [address]. auto.
Qed.
Lemma fine_step : forall me d o, fine d -> fine (dbstep me d o).
Proof.
  intros me d [x add|n c|x] F; cbn [dbstep].
  - destruct (nodeinfo d x add) as [[d1 i]|e] eqn:E; [eapply fine_nodeinfo; eauto | exact F].
  - apply fine_loop, F.
  - destruct (connect_dest d me x) as [[[d1 i] k]|e] eqn:E; [|exact F]. apply connect_cases in E as (_ & y & E & _).
    eapply fine_nodeinfo; eauto.
Qed.
Lemma fine_run : forall me l d, fine d -> fine (dbrun me d l).
Proof. intros me l. unfold dbrun. induction l as [|o l IH]; intros d F; cbn [fold_left]; [exact F|]. apply IH, fine_step, F. Qed.
Lemma fine_boot : forall phase rid l d me nm, boot phase rid l = Ok (d, me, nm) -> fine d.
Proof.
  intros phase rid l d me nm H. unfold boot in H. cbv zeta in H.
  destruct (add_configs _ ndb0 l) as [d0|e] eqn:E; [|discriminate H]. cbn [bind] in H.
  destruct (nodeinfo d0 _ true) as [[d1 i]|e] eqn:N; [|discriminate H]. cbn [bind] in H.
  destruct (i_name i); [discriminate H|]. injection H as <- _ _.
  eapply fine_nodeinfo; [|exact N]. eapply fine_configs; [|exact E]. split; [exact good_ndb0 | cbn [d_refs ndb0]; lia].
Qed.

(** *** Entries stay *)
Lemma keep_id_look : forall d x add d1 o k i, nodeinfo d x add = Ok (d1, o) -> idget d k = Some i -> idget d1 k = Some i.
Proof.
  intros d x add d1 o k i H K. destruct (nodeinfo_cases _ _ _ _ _ H) as [[_ ->] | (v & _ & N & _ & ->)]; [exact K|].
  unfold idget in *. cbn [d_id]. destruct add; [|exact K]. rewrite (dget_dset_other dest_eqb decides_dest); [exact K|]. intros ->. congruence.
Qed.
Lemma keep_nm_look : forall d x add d1 o, nodeinfo d x add = Ok (d1, o) -> d_name d1 = d_name d.
Proof. intros d x add d1 o H. destruct (nodeinfo_cases _ _ _ _ _ H) as [[_ ->] | (v & _ & _ & _ & ->)]; reflexivity. Qed.
Lemma keep_id_step : forall me d o v i, idget d (DNode v) = Some i -> idget (dbstep me d o) (DNode v) = Some i.
Proof.
  intros me d [x add|n c|x] v i K; cbn [dbstep].
  - destruct (nodeinfo d x add) as [[d1 j]|e] eqn:E; [eapply keep_id_look; eauto | exact K].
  - unfold idget, add_loop in *. cbn [d_id]. rewrite (dget_dset_other dest_eqb decides_dest); [exact K | discriminate].
  - destruct (connect_dest d me x) as [[[d1 j] k]|e] eqn:E; [|exact K]. apply connect_cases in E as (_ & y & E & _).
    eapply keep_id_look; eauto.
Qed.
Lemma keep_id_run : forall me l d v i, idget d (DNode v) = Some i -> idget (dbrun me d l) (DNode v) = Some i.
Proof. intros me l. unfold dbrun. induction l as [|o l IH]; intros d v i K; cbn [fold_left]; [exact K|]. apply IH, keep_id_step, K. Qed.
Lemma nm_step : forall me d o s, nmget (dbstep me d o) s =
  match o with OLoop n c => if leqb s (upper n) then Some (mkI (d_refs d) 0 (upper n) (Some c) None None) else nmget d s | _ => nmget d s end.
Proof.
  intros me d [x add|n c|x] s; cbn [dbstep]; unfold nmget.
  - destruct (nodeinfo d x add) as [[d1 j]|e] eqn:E; [rewrite (keep_nm_look _ _ _ _ _ E); reflexivity | reflexivity].
  - unfold add_loop. cbn [d_name]. apply (dget_dset leqb decides_leqb).
  - destruct (connect_dest d me x) as [[[d1 j] k]|e] eqn:E; [|reflexivity]. apply connect_cases in E as (_ & y & E & _).
    rewrite (keep_nm_look _ _ _ _ _ E). reflexivity.
Qed.
Lemma keep_nm_run : forall me l d s, (forall n c, In (OLoop n c) l -> upper n <> s) -> nmget (dbrun me d l) s = nmget d s.
Proof.
  intros me l. unfold dbrun. induction l as [|o l IH]; intros d s N; cbn [fold_left]; [reflexivity|].
  rewrite IH by (intros n c I; apply (N n c); right; exact I). rewrite nm_step. destruct o as [x add|n c|x]; try reflexivity.
  destruct (leqb s (upper n)) eqn:Q; [|reflexivity]. apply leqb_eq in Q. exfalso. apply (N n c); [left; reflexivity | auto].
Qed.

(** *** C70: one object for an address *)
(** However an address is given, and whatever happens in between, it stands for
    the same object, and another address for another one.  So what NSP notes
    about a node is kept in one place. *)
Theorem ndb_one : forall phase rid l d0 me nm ops x v d1 o,
  boot phase rid l = Ok (d0, me, nm) -> address x v -> nodeinfo (dbrun me d0 ops) x true = Ok (d1, o) ->
  get_dest o = DNode v /\
  forall ops2 y add, let d2 := dbrun me d1 ops2 in address y v -> nodeinfo d2 y add = Ok (d2, o).
Proof.
  intros phase rid l d0 me nm ops x v d1 o B A H. assert (F : fine (dbrun me d0 ops)) by (apply fine_run; eapply fine_boot; eauto).
  rewrite (lookup_address _ _ v true A) in H.
  assert (K : idget d1 (DNode v) = Some o).
  { destruct (by_id_cases _ _ _ _ _ H) as [[K ->] | (N & _ & ->)]; [exact K|]. unfold idget. cbn [d_id]. apply (dget_dset_same dest_eqb decides_dest). }
  assert (F1 : fine d1). { eapply fine_nodeinfo; [exact F|]. rewrite (lookup_address _ _ v true A). exact H. }
  split; [apply (g_id d1 (proj1 F1)), K|]. intros ops2 y add d2 Y. rewrite (lookup_address _ _ v add Y). unfold by_id.
  change (dget dest_eqb (d_id d2) (DNode v)) with (idget d2 (DNode v)). unfold d2. rewrite (keep_id_run _ _ _ _ _ K). reflexivity.
Qed.
Print Assumptions ndb_one.
Theorem ndb_distinct : forall phase rid l d0 me nm ops ops2 x v y add d1 o1 d2 o2,
  boot phase rid l = Ok (d0, me, nm) -> address x v -> nodeinfo (dbrun me d0 ops) x true = Ok (d1, o1) ->
  nodeinfo (dbrun me d1 ops2) y add = Ok (d2, o2) -> i_ref o1 = i_ref o2 -> o1 = o2.
Proof.
  intros phase rid l d0 me nm ops ops2 x v y add d1 o1 d2 o2 B A H1 H2 R.
  assert (F : fine (dbrun me d0 ops)) by (apply fine_run; eapply fine_boot; eauto).
  assert (F1 : fine d1) by (eapply fine_nodeinfo; eauto). assert (F2 : fine (dbrun me d1 ops2)) by (apply fine_run, F1).
  assert (K : idget d1 (DNode v) = Some o1).
  { rewrite (lookup_address _ _ v true A) in H1.
    destruct (by_id_cases _ _ _ _ _ H1) as [[K ->] | (N & _ & ->)]; [exact K|]. unfold idget. cbn [d_id]. apply (dget_dset_same dest_eqb decides_dest). }
  apply (keep_id_run me ops2) in K. assert (KN : known (dbrun me d1 ops2) o1) by (left; eauto).
  destruct (nodeinfo_cases _ _ _ _ _ H2) as [[K2 _] | (w & _ & _ & -> & _)].
  - apply (g_uq _ (proj1 F2)); auto.
  - pose proof (g_lt _ (proj1 F2) o1 KN). cbn [i_ref] in R. lia.
Qed.
Print Assumptions ndb_distinct.

(** *** C70: the configured nodes *)
Lemma upper_length : forall s, length (upper s) = length s.
Proof. intro s. apply map_length. Qed.
Lemma upper1_cases : forall c, (97 <= c <= 122 /\ ApiModel.upper1 c = c - 32) \/ (~ 97 <= c <= 122 /\ ApiModel.upper1 c = c).
Proof. intro c. unfold ApiModel.upper1. destruct (Z.leb_spec 97 c), (Z.leb_spec c 122); cbn [andb]; lia. Qed.
Lemma named_upper : forall s name, Forall (fun c => digit c \/ capital c) name -> (named s name <-> upper s = name).
Proof.
  intros s name F. split.
  - intro H. induction H as [|a b s name H _ IH]; [reflexivity|]. inversion F as [|? ? F1 F2]; subst.
    change (upper (a :: s)) with (ApiModel.upper1 a :: upper s). f_equal; [|auto]. unfold digit, capital in *.
    destruct (upper1_cases a) as [[X Y] | [X Y]]; rewrite Y; lia.
  - intros <-. induction s as [|a s IH]; [constructor|]. change (upper (a :: s)) with (ApiModel.upper1 a :: upper s) in *.
    inversion F as [|? ? F1 F2]; subst. constructor; [|apply IH, F2]. unfold digit, capital in *.
    destruct (upper1_cases a) as [[X Y] | [X Y]]; rewrite Y in *; lia.
Qed.
Lemma named_not_address : forall s name v, Exists capital name -> named s name -> ~ address (AStr s) v.
Proof.
  intros s name v E N (nl & NL & H).
  assert (S : Forall (fun c => digit c \/ c = 46 \/ c = 10) s).
  { assert (X : Forall (fun c => digit c \/ c = 46 \/ c = 10) nl) by (destruct NL as [-> | ->]; repeat constructor; auto).
    assert (D : forall n, number n -> Forall (fun c => digit c \/ c = 46 \/ c = 10) n).
    { intros n [_ F]. eapply Forall_impl; [|exact F]. auto. }
    destruct H as [(n & Nn & -> & _) | (a & n & Na & Nn & -> & _)]; repeat (apply Forall_app; split); auto. }
  clear H NL. induction N as [|a b s name H N IH]; [inversion E|]. inversion S as [|? ? S1 S2]; subst.
  inversion E as [? ? E1|? ? E1]; subst; [|auto]. unfold digit, capital in *. lia.
Qed.
Lemma home_int : forall area c a, valid_id (c_id c) -> nodeid (NInt (c_id c) None) false area = Ok a -> a = home area c.
Proof.
  intros area c a (x & n & (V1 & V2 & V3) & E) H. apply nid_int in H. unfold home. destruct (Z.eqb_spec (c_id c / 1024) 0), (Z.ltb_spec (c_id c) 1024); lia.
Qed.
Definition entry_info (area r : Z) (c : centry) : ninfo :=
  mkI r (home area c) (c_name c) None (verif (c_over c)) (verif (c_iver c)).
Lemma configs_spec : forall area l d d1, config_ok area l -> add_configs area d l = Ok d1 ->
  (forall c, In c l -> exists r, nmget d1 (c_name c) = Some (entry_info area r c) /\ idget d1 (DNode (home area c)) = Some (entry_info area r c)) /\
  (forall s, ~ In s (map c_name l) -> nmget d1 s = nmget d s) /\
  (forall k, (forall c, In c l -> k <> DNode (home area c)) -> idget d1 k = idget d k).
Proof.
  intros area. induction l as [|c l IH]; intros d d1 (F & N1 & N2) H; cbn [add_configs] in H.
  { injection H as <-. split; [intros c []|]. auto. }
  inversion F as [|? ? (V & _ & _) F2]; subst. cbn [map] in N1, N2. inversion N1 as [|? ? M1 N1']; inversion N2 as [|? ? M2 N2']; subst.
  destruct (add_config area d c) as [d2|e] eqn:E; [|discriminate H]. cbn [bind] in H.
  destruct (IH d2 d1 (conj F2 (conj N1' N2')) H) as (A & B & C). clear IH.
  unfold add_config in E. destruct (nodeid (NInt (c_id c) None) false area) as [a|e] eqn:Q; [|discriminate E]. cbn [bind] in E.
  apply (home_int area c a V) in Q. subst a. injection E as <-.
  assert (X1 : nmget d1 (c_name c) = Some (entry_info area (d_refs d) c)).
  { rewrite B by exact M1. unfold nmget. cbn [d_name]. apply (dget_dset_same leqb decides_leqb). }
  assert (X2 : idget d1 (DNode (home area c)) = Some (entry_info area (d_refs d) c)).
  { rewrite C; [unfold idget; cbn [d_id]; apply (dget_dset_same dest_eqb decides_dest)|].
    intros c' I X. injection X as X. apply M2. rewrite X. apply in_map, I. }
  split; [|split].
  - intros c' [<- | I]; [exists (d_refs d); auto | auto].
  - intros s N. cbn [map In] in N. rewrite B by tauto. unfold nmget. cbn [d_name]. apply (dget_dset_other leqb decides_leqb). intro; subst; tauto.
  - intros k N. rewrite C by (intros c' I; apply N; right; exact I). unfold idget. cbn [d_id]. apply (dget_dset_other dest_eqb decides_dest).
    apply N. left. reflexivity.
Qed.
Lemma boot_spec : forall phase rid l d me nm, boot phase rid l = Ok (d, me, nm) ->
  exists d0 i, add_configs (my_area phase rid) ndb0 l = Ok d0 /\ me = (if phase =? 4 then rid else nid_tid rid) /\
    nodeinfo d0 (AInt me) true = Ok (d, i) /\ i_name i = nm /\ nm <> [].
Proof.
  intros phase rid l d me nm H. unfold boot in H. cbv zeta in H.
  replace (if phase =? 4 then (if phase =? 4 then rid else nid_tid rid) / 1024 else 0) with (my_area phase rid) in H
    by (unfold my_area; destruct (phase =? 4); reflexivity).
  destruct (add_configs _ ndb0 l) as [d0|e] eqn:E; [|discriminate H]. cbn [bind] in H.
  destruct (nodeinfo d0 _ true) as [[d1 i]|e] eqn:N; [|discriminate H]. cbn [bind] in H.
  destruct (i_name i) as [|n0 n1] eqn:M; [discriminate H|]. injection H as <- <- <-. exists d0, i. repeat split; auto. discriminate.
Qed.
Lemma boot_nm : forall phase rid l d me nm, boot phase rid l = Ok (d, me, nm) -> config_ok (my_area phase rid) l ->
  (forall c, In c l -> exists r, nmget d (c_name c) = Some (entry_info (my_area phase rid) r c) /\
     idget d (DNode (home (my_area phase rid) c)) = Some (entry_info (my_area phase rid) r c)) /\
  (forall s, ~ In s (map c_name l) -> nmget d s = None) /\
  (forall k, (forall c, In c l -> k <> DNode (home (my_area phase rid) c)) -> k <> DNode me -> idget d k = None).
Proof.
  intros phase rid l d me nm B CO. apply boot_spec in B as (d0 & i & E & _ & N & _). destruct (configs_spec _ _ _ _ CO E) as (A1 & A2 & A3).
  pose proof (keep_nm_look _ _ _ _ _ N) as KN. split; [|split].
  - intros c I. destruct (A1 c I) as (r & R1 & R2). exists r. unfold nmget in *. rewrite KN. split; [exact R1|]. eapply keep_id_look; eauto.
  - intros s S. unfold nmget in *. rewrite KN. rewrite A2 by exact S. reflexivity.
  - intros k K NM. destruct (nodeinfo_cases _ _ _ _ _ N) as [[_ ->] | (v & A & _ & _ & ->)]; [rewrite A3 by exact K; reflexivity|].
    cbn [address] in A. subst v. unfold idget in *. cbn [d_id]. rewrite (dget_dset_other dest_eqb decides_dest) by exact NM.
    specialize (A3 k K). exact A3.
Qed.
(** A configured node is found by its name, whatever the case, and by its
    address; an address without area in the configuration is one in the
    executor's area. *)
Definition calls (area : Z) (x : narg) (c : centry) : Prop :=
  (exists s, x = AStr s /\ named s (c_name c)) \/ address x (home area c).
Definition nonempty (v : option (list Z)) : option (list Z) := match v with Some [] => None | _ => v end.
Theorem ndb_config : forall phase rid l d0 me nm ops c,
  boot phase rid l = Ok (d0, me, nm) -> config_ok (my_area phase rid) l -> In c l ->
  (forall name circ, In (OLoop name circ) ops -> ~ named name (c_name c)) ->
  let d := dbrun me d0 ops in
  exists o, i_addr o = home (my_area phase rid) c /\ i_name o = c_name c /\ get_dest o = DNode (i_addr o) /\
    i_over o = nonempty (c_over c) /\ i_iver o = nonempty (c_iver c) /\
    forall x add, calls (my_area phase rid) x c -> nodeinfo d x add = Ok (d, o).
Proof.
  intros phase rid l d0 me nm ops c B CO I NL d. destruct (boot_nm _ _ _ _ _ _ B CO) as (A & _). destruct (A c I) as (r & R1 & R2).
  destruct CO as (F & _). rewrite Forall_forall in F. destruct (F c I) as (_ & _ & NO & EX).
  exists (entry_info (my_area phase rid) r c). repeat (split; [reflexivity|]). intros x add [(s & -> & N) | X].
  - rewrite lookup_name by (intro v; apply (named_not_address s (c_name c)); assumption).
    apply named_upper in N; [|exact NO]. rewrite N. change (dget leqb (d_name d) (c_name c)) with (nmget d (c_name c)). unfold d.
    rewrite keep_nm_run, R1; [reflexivity|]. intros n k L U. apply (NL n k L). apply named_upper; assumption.
  - rewrite (lookup_address _ _ _ add X). unfold by_id. change (dget dest_eqb (d_id d) (DNode (home (my_area phase rid) c))) with (idget d (DNode (home (my_area phase rid) c))).
    unfold d. rewrite (keep_id_run _ _ _ _ _ R2). reflexivity.
Qed.
Print Assumptions ndb_config.

(** *** C70: names *)
(** A name is known exactly if it is that of a configured node or of a loop
    node; looking one up does not make it known. *)
Theorem ndb_names : forall phase rid l d0 me nm ops s add,
  boot phase rid l = Ok (d0, me, nm) -> config_ok (my_area phase rid) l -> (forall v, ~ address (AStr s) v) ->
  let d := dbrun me d0 ops in
  ((exists c, In c l /\ named s (c_name c)) \/ (exists name circ, In (OLoop name circ) ops /\ upper s = upper name)) /\
    (exists o, nodeinfo d (AStr s) add = Ok (d, o) /\ i_name o = upper s) \/
  ~ ((exists c, In c l /\ named s (c_name c)) \/ (exists name circ, In (OLoop name circ) ops /\ upper s = upper name)) /\
    nodeinfo d (AStr s) add = Err EKey.
Proof.
  intros phase rid l d0 me nm ops s add B CO NA d. rewrite (lookup_name d s add NA). change (dget leqb (d_name d) (upper s)) with (nmget d (upper s)).
  assert (F : fine d) by (apply fine_run; eapply fine_boot; eauto).
  assert (K : nmget d (upper s) <> None <-> (exists c, In c l /\ named s (c_name c)) \/ (exists name circ, In (OLoop name circ) ops /\ upper s = upper name)).
  { destruct (boot_nm _ _ _ _ _ _ B CO) as (A & N & _). destruct CO as (FO & _). rewrite Forall_forall in FO.
    assert (K0 : nmget d0 (upper s) <> None <-> exists c, In c l /\ named s (c_name c)).
    { split.
      - intro X. destruct (in_dec (list_eq_dec Z.eq_dec) (upper s) (map c_name l)) as [Y | Y]; [|contradiction (X (N _ Y))].
        apply in_map_iff in Y as (c & E & I). exists c. split; [exact I|]. apply named_upper; [apply (FO c I) | auto].
      - intros (c & I & M). apply named_upper in M; [|apply (FO c I)]. destruct (A c I) as (r & R & _). rewrite M, R. discriminate. }
    clear - K0. unfold d, dbrun. assert (G : forall ops d, nmget (fold_left (dbstep me) ops d) (upper s) <> None <->
      nmget d (upper s) <> None \/ exists name circ, In (OLoop name circ) ops /\ upper s = upper name).
    { induction ops0 as [|o ops0 IH]; intros e; cbn [fold_left].
      - split; [auto|]. intros [X | (n & c & [] & _)]. exact X.
      - rewrite IH, nm_step. cbn [In]. destruct o as [x add|n c|x].
        + split; intros [X | (m & k & X & Y)]; eauto; [right; exists m, k; auto|]. destruct X as [X | X]; [discriminate X | eauto].
        + destruct (leqb (upper s) (upper n)) eqn:Q.
          * apply leqb_eq in Q. split; [intros _; right; exists n, c; auto | intros _; left; discriminate].
          * split; intros [X | (m & k & X & Y)]; eauto; [right; exists m, k; auto|]. destruct X as [X | X]; [|eauto].
            injection X as -> ->. assert (leqb (upper s) (upper m) = true) by (apply leqb_eq; exact Y). congruence.
        + split; intros [X | (m & k & X & Y)]; eauto; [right; exists m, k; auto|]. destruct X as [X | X]; [discriminate X | eauto]. }
    rewrite G, K0. reflexivity. }
  destruct (nmget d (upper s)) as [i|] eqn:E.
  - left. split; [apply K; discriminate|]. exists i. split; [reflexivity|]. apply (g_nm d (proj1 F)), E.
  - right. split; [|reflexivity]. intro X. apply K in X. contradiction X. reflexivity.
Qed.
Print Assumptions ndb_names.

(** *** C70: loop nodes *)
(** The name of a loop node stands for its circuit. *)
Lemma upper_idem : forall s, upper (upper s) = upper s.
Proof.
  induction s as [|a s IH]; [reflexivity|]. change (upper (a :: s)) with (ApiModel.upper1 a :: upper s).
  change (upper (ApiModel.upper1 a :: upper s)) with (ApiModel.upper1 (ApiModel.upper1 a) :: upper (upper s)). rewrite IH. f_equal.
  destruct (upper1_cases a) as [[X Y] | [X Y]]; rewrite Y.
  - destruct (upper1_cases (a - 32)) as [[X2 Y2] | [X2 Y2]]; rewrite Y2; lia.
  - exact Y.
Qed.
Lemma no_address_connect : forall d me s, (forall v, ~ address (AStr s) v) ->
  connect_dest d me (AStr s) = let* (d1, i) := nodeinfo d (AStr s) true in Ok (d1, i, get_dest i).
Proof.
  intros d me s N. unfold connect_dest. destruct (nodeid (NStr s) false 0) as [v|e] eqn:E; [|reflexivity].
  exfalso. apply (N v), address_str, E.
Qed.
Theorem ndb_loop : forall me d0 ops ops2 name circ s add,
  (forall n c, In (OLoop n c) ops2 -> upper n <> upper name) ->
  upper s = upper name -> (forall v, ~ address (AStr s) v) ->
  let d := dbrun me d0 (ops ++ OLoop name circ :: ops2) in
  exists o, nodeinfo d (AStr s) add = Ok (d, o) /\ get_dest o = DCirc circ /\ i_name o = upper name /\
    connect_dest d me (AStr s) = Ok (d, o, DCirc circ).
Proof.
  intros me d0 ops ops2 name circ s add N U NA d.
  assert (K : exists r, nmget d (upper s) = Some (mkI r 0 (upper name) (Some circ) None None)).
  { unfold d, dbrun. rewrite fold_left_app. cbn [fold_left]. fold (dbrun me d0 ops). set (e := dbrun me d0 ops).
    change (fold_left (dbstep me) ops2 (dbstep me e (OLoop name circ))) with (dbrun me (dbstep me e (OLoop name circ)) ops2).
    rewrite U, keep_nm_run by exact N. rewrite nm_step. replace (leqb (upper name) (upper name)) with true by (symmetry; apply leqb_eq; reflexivity).
    eauto. }
  destruct K as (r & K). exists (mkI r 0 (upper name) (Some circ) None None).
  rewrite (no_address_connect d me s NA), !(lookup_name d s) by exact NA.
  change (dget leqb (d_name d) (upper s)) with (nmget d (upper s)). rewrite K. repeat split.
Qed.
Print Assumptions ndb_loop.

(** *** C70: connections *)
Lemma valid_int : forall v area, valid_id v -> exists a, nodeid (NInt v None) false area = Ok a.
Proof.
  intros v area (a & n & (V1 & V2 & V3) & ->). cbn [nodeid]. unfold nid_finish.
  replace ((a * 1024 + n) / 1024) with a by lia. replace ((a * 1024 + n) mod 1024) with n by lia.
  destruct (Z.ltb_spec 63 a); [lia|]. destruct (Z.ltb_spec 1023 n); [lia|]. cbn [orb].
  destruct (Z.eqb_spec n 0) as [-> | ]; [|cbn [andb]; eauto]. rewrite V3 by reflexivity. rewrite Z.eqb_refl. cbn [negb andb]. eauto.
Qed.
Lemma by_id_total : forall d v add, valid_id v -> exists d1 o, by_id d v add = Ok (d1, o).
Proof.
  intros d v add V. unfold by_id. destruct (dget _ _ _) as [i|]; [eauto|]. destruct (valid_int v 0 V) as (a & E). rewrite E. cbn [bind]. eauto.
Qed.
Lemma address_connect : forall d me x v, address x v -> valid_id v ->
  connect_dest d me x = let* (d1, i) := by_id d (if v =? 0 then me else v) true in Ok (d1, i, get_dest i).
Proof.
  intros d me x v A V. unfold connect_dest. cbv zeta.
  assert (E : (match x with AStr s => nodeid (NStr s) false 0 | AInt n => nodeid (NInt n None) false 0 end) = Ok v).
  { destruct x as [s|n]; [apply address_str, A|]. cbn [address] in A. subst n. destruct (valid_int v 0 V) as (a & E). rewrite E. f_equal. apply nid_int0, E. }
  rewrite E. destruct (v =? 0).
  - reflexivity.
  - rewrite (lookup_address _ _ v true A). reflexivity.
Qed.
(** The destination of a connection: an address is taken as it is, known or
    not, except that 0 is the executor; a configured node's name gives its
    address; other names are refused (see ndb_names), and nothing changes. *)
Theorem ndb_connect : forall phase rid l d0 me nm ops,
  boot phase rid l = Ok (d0, me, nm) -> config_ok (my_area phase rid) l -> valid_id rid ->
  let d := dbrun me d0 ops in
  (forall x v, address x v -> valid_id v -> exists d1 o, connect_dest d me x = Ok (d1, o, DNode (if v =? 0 then me else v))) /\
  (forall c s, In c l -> named s (c_name c) -> (forall name circ, In (OLoop name circ) ops -> ~ named name (c_name c)) ->
     exists o, connect_dest d me (AStr s) = Ok (d, o, DNode (home (my_area phase rid) c))) /\
  (forall s, (forall v, ~ address (AStr s) v) -> nodeinfo d (AStr s) true = Err EKey ->
     connect_dest d me (AStr s) = Err EKey /\ dbstep me d (OConn (AStr s)) = d).
Proof.
  intros phase rid l d0 me nm ops B CO VR d. assert (F : fine d) by (apply fine_run; eapply fine_boot; eauto). split; [|split].
  - intros x v A V. rewrite (address_connect d me x v A V).
    assert (VM : valid_id (if v =? 0 then me else v)).
    { destruct (v =? 0); [|exact V]. apply boot_spec in B as (_ & _ & _ & -> & _). destruct (phase =? 4); [exact VR|].
      destruct VR as (a & n & (V1 & V2 & V3) & ->). exists 0, n. split; [repeat split; lia|]. unfold nid_tid. change 1023 with (Z.ones 10).
      rewrite Z.land_ones by lia. change (2 ^ 10) with 1024. lia. }
    destruct (by_id_total d _ true VM) as (d1 & o & E). rewrite E. cbn [bind]. exists d1, o. do 2 f_equal.
    assert (F1 : fine d1) by (eapply (fine_nodeinfo d (AInt (if v =? 0 then me else v))); [exact F | exact E]).
    destruct (by_id_cases _ _ _ _ _ E) as [[K ->] | (_ & -> & _)]; [apply (g_id d (proj1 F)), K | reflexivity].
  - intros c s I N NL. destruct (ndb_config _ _ _ _ _ _ ops c B CO I NL) as (o & O1 & _ & O2 & _ & _ & O3). fold d in O3.
    destruct CO as (FO & _). rewrite Forall_forall in FO. destruct (FO c I) as (_ & _ & NO & EX).
    rewrite no_address_connect by (intro v; apply (named_not_address s (c_name c)); assumption).
    rewrite (O3 (AStr s) true) by (left; eauto). cbn [bind]. exists o. rewrite O2, O1. reflexivity.
  - intros s N E. cbn [dbstep]. rewrite (no_address_connect d me s N), E. split; reflexivity.
Qed.
Print Assumptions ndb_connect.

(** *** C70: the executor *)
(** The node starts exactly if the configuration names the executor's address;
    that name is then its name. *)
Lemma configs_total : forall area l d, Forall (fun c => valid_id (c_id c)) l -> exists d1, add_configs area d l = Ok d1.
Proof.
  intros area. induction l as [|c l IH]; intros d F; cbn [add_configs]; [eauto|]. inversion F as [|? ? F1 F2]; subst.
  unfold add_config. destruct (valid_int (c_id c) area F1) as (a & ->). cbn [bind]. apply IH, F2.
Qed.
Theorem ndb_executor : forall phase rid l me nm, config_ok (my_area phase rid) l -> valid_id rid ->
  ((exists d, boot phase rid l = Ok (d, me, nm)) <->
   me = (if phase =? 4 then rid else rid mod 1024) /\ exists c, In c l /\ home (my_area phase rid) c = me /\ c_name c = nm).
Proof.
  intros phase rid l me nm CO VR.
  assert (TID : nid_tid rid = rid mod 1024) by (unfold nid_tid; change 1023 with (Z.ones 10); rewrite Z.land_ones by lia; reflexivity).
  pose proof CO as (FO & _). assert (V : Forall (fun c => valid_id (c_id c)) l) by (eapply Forall_impl; [|exact FO]; cbn; tauto).
  destruct (configs_total (my_area phase rid) l ndb0 V) as (d0 & E). destruct (configs_spec _ _ _ _ CO E) as (A1 & _ & A3).
  split.
  - intros (d & B). apply boot_spec in B as (d0' & i & E' & M & N & NM & NE). assert (d0' = d0) by congruence. subst d0'. rewrite TID in M. split; [exact M|].
    change (nodeinfo d0 (AInt me) true) with (by_id d0 me true) in N. destruct (by_id_cases _ _ _ _ _ N) as [[K _] | (_ & -> & _)]; [|exfalso; apply NE; rewrite <- NM; reflexivity].
    destruct (in_dec Z.eq_dec me (map (home (my_area phase rid)) l)) as [I | I].
    + apply in_map_iff in I as (c & H & I). exists c. split; [exact I|]. split; [exact H|]. destruct (A1 c I) as (r & _ & R). rewrite H in R.
      rewrite R in K. injection K as <-. exact NM.
    + rewrite A3 in K; [discriminate K|]. intros c I2 X. injection X as X. apply I. rewrite X. apply in_map, I2.
  - intros (M & c & I & H & N). destruct (A1 c I) as (r & _ & R). unfold boot. cbv zeta. rewrite TID, <- M.
    replace (if phase =? 4 then me / 1024 else 0) with (my_area phase rid) by (rewrite M; unfold my_area; destruct (phase =? 4); reflexivity).
    rewrite E. cbn [bind]. change (nodeinfo d0 (AInt me) true) with (by_id d0 me true). unfold by_id.
    change (dget dest_eqb (d_id d0) (DNode me)) with (idget d0 (DNode me)). rewrite H in R. rewrite R. cbn [bind entry_info i_name].
    rewrite Forall_forall in FO. destruct (FO c I) as (_ & _ & _ & EX). rewrite N in *. destruct nm as [|n0 n1]; [inversion EX|]. eauto.
Qed.
Print Assumptions ndb_executor.

(** *** C70: what is listed *)
(** The nodes listed are the configured ones and those asked for by address
    (connections ask, too), each once. *)
Definition asked (ops : list dbop) (v : Z) : Prop :=
  exists x, address x v /\ (In (OLook x true) ops \/ v <> 0 /\ In (OConn x) ops).
Lemma step_id : forall me d o v, valid_id v -> idget d (DNode me) <> None ->
  (idget (dbstep me d o) (DNode v) <> None <-> idget d (DNode v) <> None \/ asked [o] v).
Proof.
  intros me d o v V ME.
  assert (L : forall w y, address y w -> valid_id w -> idget (match nodeinfo d y true with Ok (d1, _) => d1 | Err _ => d end) (DNode v) <> None <-> idget d (DNode v) <> None \/ v = w).
  { intros w y A W. rewrite (lookup_address _ _ w true A). destruct (by_id_total d w true W) as (d1 & i & E). rewrite E.
    destruct (by_id_cases _ _ _ _ _ E) as [[K ->] | (K & _ & ->)].
    - split; [auto|]. intros [X | ->]; [exact X | congruence].
    - unfold idget. cbn [d_id]. rewrite (dget_dset dest_eqb decides_dest). destruct (dest_eqb (DNode v) (DNode w)) eqn:Q.
      + apply decides_dest in Q. injection Q as ->. split; [auto | intros _; discriminate].
      + split; [auto|]. intros [X | ->]; [exact X|]. cbn [dest_eqb] in Q. rewrite Z.eqb_refl in Q. discriminate Q. }
  assert (L0 : forall w y add, address y w -> ~ valid_id w -> idget (match nodeinfo d y add with Ok (d1, _) => d1 | Err _ => d end) (DNode v) = idget d (DNode v)).
  { intros w y add A W. destruct (nodeinfo d y add) as [[d1 i]|e] eqn:E; [|reflexivity].
    destruct (nodeinfo_cases _ _ _ _ _ E) as [[_ ->] | (u & A2 & _ & _ & ->)]; [reflexivity|].
    rewrite (address_fun y u w A2 A) in *. unfold idget. cbn [d_id]. destruct add; [|reflexivity].
    rewrite (dget_dset_other dest_eqb decides_dest); [reflexivity|]. intro X. injection X as ->. contradiction. }
  assert (DEC : forall w, valid_id w \/ ~ valid_id w).
  { intro w. destruct (Z_le_dec 0 w) as [P | P]; [|right; intros (a & n & (V1 & V2 & V3) & ->); lia].
    destruct (Z_le_dec (w / 1024) 63) as [P1 | P1]; [|right; intros (a & n & (V1 & V2 & V3) & ->); lia].
    destruct (Z.eq_dec (w mod 1024) 0) as [P2 | P2].
    - destruct (Z.eq_dec (w / 1024) 0) as [P3 | P3]; [left; exists 0, 0; split; [repeat split; lia | lia] | right].
      intros (a & n & (V1 & V2 & V3) & ->). lia.
    - left. exists (w / 1024), (w mod 1024). split; [repeat split; lia | lia]. }
  destruct o as [x add|n c|x]; cbn [dbstep].
  - destruct add.
    + destruct (narg_cases x) as [(w & A) | (s & -> & A)].
      * destruct (DEC w) as [W | W].
        -- rewrite (L w x A W). split; (intros [X | X]; [left; exact X | right]).
           ++ subst w. exists x. split; [exact A|]. left. left. reflexivity.
           ++ destruct X as (y & Y & [[E | []] | [_ [E | []]]]); [|discriminate E]. injection E as ->. eapply address_fun; eauto.
        -- rewrite (L0 w x true A W). split; [auto|]. intros [X | (y & Y & [[E | []] | [_ [E | []]]])]; [exact X | | discriminate E].
           injection E as ->. rewrite (address_fun _ _ _ Y A) in V. contradiction.
      * rewrite (lookup_name d s true A). destruct (dget leqb (d_name d) (upper s)); (split; [auto|]);
          intros [X | (y & Y & [[E | []] | [_ [E | []]]])]; try exact X; try discriminate E; injection E as <-; contradiction (A v).
    + assert (K : idget (match nodeinfo d x false with Ok (d1, _) => d1 | Err _ => d end) (DNode v) = idget d (DNode v)).
      { destruct (nodeinfo d x false) as [[d1 i]|e] eqn:E; [|reflexivity]. destruct (nodeinfo_cases _ _ _ _ _ E) as [[_ ->] | (u & _ & _ & _ & ->)]; reflexivity. }
      rewrite K. split; [auto|]. intros [X | (y & Y & [[E | []] | [_ [E | []]]])]; [exact X | discriminate E | discriminate E].
  - unfold idget, add_loop. cbn [d_id]. rewrite (dget_dset_other dest_eqb decides_dest) by discriminate.
    split; [auto|]. intros [X | (y & Y & [[E | []] | [_ [E | []]]])]; [exact X | discriminate E | discriminate E].
  - assert (R : (idget (match connect_dest d me x with Ok (d1, _, _) => d1 | Err _ => d end) (DNode v) <> None <-> idget d (DNode v) <> None \/ v <> 0 /\ address x v)).
    { destruct (narg_cases x) as [(w & A) | (s & -> & A)].
      - destruct (DEC w) as [W | W].
        + rewrite (address_connect d me x w A W). destruct (Z.eqb_spec w 0) as [-> | NZ].
          * unfold by_id. change (dget dest_eqb (d_id d) (DNode me)) with (idget d (DNode me)). destruct (idget d (DNode me)) as [i|]; [|contradiction ME; reflexivity].
            cbn [bind]. split; [auto|]. intros [X | [X Y]]; [exact X|]. contradiction X. eapply address_fun; eauto.
          * specialize (L w x A W). rewrite (lookup_address _ _ w true A) in L.
            destruct (by_id_total d w true W) as (d1 & i & BE). rewrite BE in *. cbn [bind]. rewrite L.
            split; (intros [X | X]; [left; exact X | right]); [subst w; auto|]. destruct X as [_ X]. eapply address_fun; eauto.
        + assert (K : idget (match connect_dest d me x with Ok (d1, _, _) => d1 | Err _ => d end) (DNode v) = idget d (DNode v)).
          { destruct (connect_dest d me x) as [[[d1 i] k]|e] eqn:E; [|reflexivity]. apply connect_cases in E as (_ & y & E & [-> | [-> A0]]).
            - specialize (L0 w x true A W). rewrite E in L0. exact L0.
            - exfalso. apply W. rewrite (address_fun _ _ _ A A0). exists 0, 0. split; [repeat split; lia | reflexivity]. }
          rewrite K. split; [auto|]. intros [X | [_ X]]; [exact X|]. rewrite (address_fun _ _ _ X A) in V. contradiction.
      - rewrite (no_address_connect d me s A), (lookup_name d s true A). destruct (dget leqb (d_name d) (upper s)); cbn [bind];
          (split; [auto|]); intros [X | [_ X]]; try exact X; contradiction (A v). }
    rewrite R. split; (intros [X | X]; [left; exact X | right]).
    + destruct X as [X Y]. exists x. split; [exact Y|]. right. split; [exact X|]. left. reflexivity.
    + destruct X as (y & Y & [[E | []] | [Z [E | []]]]); [discriminate E|]. injection E as ->. auto.
Qed.
Lemma dest_dec : forall a b : dest, {a = b} + {a <> b}.
Proof. decide equality; apply Z.eq_dec. Qed.
Theorem ndb_listing : forall phase rid l d0 me nm ops,
  boot phase rid l = Ok (d0, me, nm) -> config_ok (my_area phase rid) l -> valid_id rid ->
  let d := dbrun me d0 ops in
  NoDup (map get_dest (listing d)) /\
  forall v, valid_id v -> ((exists i, In i (listing d) /\ get_dest i = DNode v) <->
    (exists c, In c l /\ home (my_area phase rid) c = v) \/ asked ops v).
Proof.
  intros phase rid l d0 me nm ops B CO VR d. assert (F : fine d) by (apply fine_run; eapply fine_boot; eauto).
  assert (KEYS : map get_dest (listing d) = dkeys (d_id d)).
  { unfold listing, dkeys. rewrite map_map. apply map_ext_in. intros [k i] I. cbn [fst snd].
    apply (g_id d (proj1 F)). unfold idget. apply (in_dget dest_eqb decides_dest); [apply (g_nd d (proj1 F)) | exact I]. }
  split; [rewrite KEYS; apply (g_nd d (proj1 F))|]. intros v V.
  assert (X : (exists i, In i (listing d) /\ get_dest i = DNode v) <-> idget d (DNode v) <> None).
  { transitivity (In (DNode v) (map get_dest (listing d))).
    - rewrite !in_map_iff. split; intros (i & A & C); exists i; auto.
    - rewrite KEYS. pose proof (dget_none dest_eqb decides_dest (d_id d) (DNode v)) as DN. unfold idget.
      split; [intros I E; apply DN in E; contradiction|]. intro N. destruct (in_dec dest_dec (DNode v) (dkeys (d_id d))) as [I | I]; [exact I|].
      exfalso. apply N, DN, I. }
  rewrite X. clear X KEYS F.
  destruct (proj1 (ndb_executor phase rid l me nm CO VR) (ex_intro _ d0 B)) as (M & cm & IM & HM & _).
  destruct (boot_nm _ _ _ _ _ _ B CO) as (A & _ & C).
  assert (X0 : idget d0 (DNode v) <> None <-> exists c, In c l /\ home (my_area phase rid) c = v).
  { split.
    - intro X. destruct (in_dec Z.eq_dec v (map (home (my_area phase rid)) l)) as [I | I].
      + apply in_map_iff in I as (c & H & I). eauto.
      + exfalso. apply X, C; [intros c I2 Y | intro Y]; injection Y as ->; apply I; [apply in_map, I2 | rewrite <- HM; apply in_map, IM].
    - intros (c & I & <-). destruct (A c I) as (r & _ & R). rewrite R. discriminate. }
  assert (ME : idget d0 (DNode me) <> None). { destruct (A cm IM) as (r & _ & R). rewrite HM in R. rewrite R. discriminate. }
  rewrite <- X0. clear X0 A C B CO. unfold d, dbrun. revert d0 d ME. induction ops as [|o ops IH]; intros d0 d ME; cbn [fold_left].
  - split; [auto|]. intros [X | (x & _ & [[] | [_ []]])]. exact X.
  - rewrite IH.
    + rewrite (step_id me d0 o v V ME). split.
      * intros [[X | (x & Y & [[E | []] | [Z [E | []]]])] | (x & Y & [E | [Z E]])]; auto; right; exists x; (split; [exact Y|]); cbn [In]; auto.
      * intros [X | (x & Y & [[E | E] | [Z [E | E]]])]; auto.
        -- left. right. exists x. cbn [In]. auto.
        -- right. exists x. auto.
        -- left. right. exists x. cbn [In]. auto.
        -- right. exists x. auto.
    + destruct (idget d0 (DNode me)) as [i|] eqn:E; [|contradiction ME; reflexivity]. rewrite (keep_id_step _ _ _ _ _ E). discriminate.
Qed.
Print Assumptions ndb_listing.

(** *** Cases *)
(** Executor 1.1 called M, node 5 called B1 (so 1.5), node 2.7 called R with a
    password to expect; then a loop node L on circuit 3. *)
Definition ex_l : list centry := [mkCe 1025 [77] None None; mkCe 5 [66; 49] None (Some []); mkCe 2055 [82] None (Some [112; 119])].
Example ndb_example_ok : config_ok (my_area 4 1025) ex_l.
Proof.
  split; [|split].
  - assert (C : forall a n v nm, valid_node a n -> v = a * 1024 + n -> v <> 0 -> name_ok nm -> valid_id v /\ v <> 0 /\ name_ok nm).
    { intros a n v nm V E N O. split; [exists a, n; auto | auto]. }
    assert (D : forall x, capital x -> digit x \/ capital x) by auto.
    repeat apply Forall_cons; try apply Forall_nil; cbn [c_id c_name].
    + apply (C 1 1); [repeat split; lia | lia | lia |]. split; [constructor; [right; unfold capital; lia | constructor] | constructor; unfold capital; lia].
    + apply (C 0 5); [repeat split; lia | lia | lia |]. split; [|constructor; unfold capital; lia].
      constructor; [right; unfold capital; lia|]. constructor; [left; unfold digit; lia | constructor].
    + apply (C 2 7); [repeat split; lia | lia | lia |]. split; [constructor; [right; unfold capital; lia | constructor] | constructor; unfold capital; lia].
  - repeat constructor; cbn [map c_name ex_l In]; intuition discriminate.
  - repeat constructor; vm_compute; intuition discriminate.
Qed.
(** The name in small letters, the address as text and as a number: the same
    object; another node: another object; the loop node: its circuit. *)
Example ndb_example : match boot 4 1025 ex_l with
  | Ok (d0, me, nm) =>
      let d := dbrun me d0 [OLook (AInt 3) true; OLoop [108] 3] in
      let look x := match nodeinfo d x true with Ok (_, i) => Some (i_ref i, get_dest i, i_iver i) | Err _ => None end in
      me = 1025 /\ nm = [77] /\
      look (AStr [98; 49]) = Some (1, DNode 1029, None) /\ look (AStr [49; 46; 53]) = Some (1, DNode 1029, None) /\
      look (AInt 1029) = Some (1, DNode 1029, None) /\ look (AStr [114]) = Some (2, DNode 2055, Some [112; 119]) /\
      look (AStr [76]) = Some (4, DCirc 3, None) /\ look (AStr [120]) = None /\
      map get_dest (listing d) = [DNode 1025; DNode 1029; DNode 2055; DNode 3; DCirc 3] /\
      match connect_dest d me (AStr [48]) with Ok (_, _, k) => k = DNode 1025 | Err _ => False end
  | Err _ => False
  end.
Proof. vm_compute. repeat split. Qed.

(** Not what a user expects.  A node number without area is not taken to be in
    the executor's area when it is used (it is in the configuration). *)
Theorem ndb_short_refuted : match boot 4 1025 ex_l with
  | Ok (d0, me, _) => exists d1 o, connect_dest d0 me (AStr [53]) = Ok (d1, o, DNode 5) /\ i_name o = []
  | Err _ => False
  end.
Proof. vm_compute. eexists. eexists. split; reflexivity. Qed.
(** Entries for 5 and 1.5 are not noticed to be for the same node: there are
    two objects, and only one is found by the address. *)
Theorem ndb_twice_refuted : match boot 4 1025 [mkCe 1025 [77] None None; mkCe 5 [66] None None; mkCe 1029 [67] None None] with
  | Ok (d0, me, _) => exists o1 o2, nodeinfo d0 (AStr [66]) true = Ok (d0, o1) /\ nodeinfo d0 (AStr [67]) true = Ok (d0, o2) /\
      i_addr o1 = i_addr o2 /\ i_ref o1 <> i_ref o2 /\ nodeinfo d0 (AInt 1029) true = Ok (d0, o2)
  | Err _ => False
  end.
Proof. vm_compute. eexists. eexists. repeat split; discriminate. Qed.
(** A loop node hides a node of the same name, and one named like an address
    cannot be used. *)
Theorem ndb_shadow_refuted : match boot 4 1025 ex_l with
  | Ok (d0, me, _) =>
      (exists o, connect_dest (dbrun me d0 [OLoop [114] 3]) me (AStr [82]) = Ok (dbrun me d0 [OLoop [114] 3], o, DCirc 3)) /\
      (exists d1 o, connect_dest (dbrun me d0 [OLoop [53] 3]) me (AStr [53]) = Ok (d1, o, DNode 5))
  | Err _ => False
  end.
Proof. vm_compute. split; [eexists; reflexivity | eexists; eexists; reflexivity]. Qed.
