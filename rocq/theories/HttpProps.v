(** C77: the web server gives out only files below its resource directory, all of
    them that a URL can name, and shows the page of the system asked for. *)
From Coq Require Import String Ascii.
From Verif Require Import Base HttpModel.

(** * Specification *)
(** A name that is one step down in the file system. *)
Definition normal (n : str) : Prop := n <> [] /\ n <> [46] /\ n <> [46; 46] /\ ~ In 47 n.
(** A name without characters that mean something in a URL. *)
Definition plain (n : str) : Prop := normal n /\ forall x, In x n -> x <> 0 /\ x <> 35 /\ x <> 59 /\ x <> 63.
(** A name of letters and digits, as node names are. *)
Definition alnum (n : str) : Prop :=
  n <> [] /\ forall x, In x n -> 48 <= x <= 57 \/ 65 <= x <= 90 \/ 97 <= x <= 122.
(** The URL of the names, from the root. *)
Definition url_of (l : list str) : str := flat_map (fun n => 47 :: n) l.
(** Text after the path that names a system. *)
Definition q_system (n : str) : str := 63 :: w_system ++ 61 :: n.
Definition word (l : layer) : str :=
  match l with LRouting => w_routing | LNsp => w_nsp | LMop => w_mop | LStats => w_stats | LBridge => w_bridge end.

(** The words are those of the source. *)
Definition txt (s : string) : str := List.map (fun a => Z.of_nat (nat_of_ascii a)) (list_ascii_of_string s).
Theorem http_words :
  [w_resources; w_robots; w_public; w_index; w_map; w_system; w_m; w_bridge; w_routing; w_nsp; w_mop; w_stats] =
  List.map txt ["resources"; "robots.txt"; "public"; "index.html"; "map"; "system"; "m"; "bridge"; "routing"; "nsp"; "mop"; "stats"]%string.
Proof. reflexivity. Qed.

(** * Lemmas *)
Lemma seqb_eq a b : seqb a b = true <-> a = b.
Proof. unfold seqb. destruct (list_eq_dec Z.eq_dec a b); split; congruence. Qed.
Lemma seqb_ne a b : seqb a b = false <-> a <> b.
Proof. unfold seqb. destruct (list_eq_dec Z.eq_dec a b); split; congruence. Qed.
Lemma seqb_refl a : seqb a a = true.
Proof. apply seqb_eq. reflexivity. Qed.

Lemma split_ne c s : split c s <> [].
Proof. destruct s as [| x t]; cbn [split]; [discriminate |]. destruct (x =? c); [discriminate |]. destruct (split c t); discriminate. Qed.
Lemma split_no c s : forall n, In n (split c s) -> ~ In c n.
Proof.
  induction s as [| x t IH]; cbn [split]; intros n H.
  - destruct H as [<- | []]. exact (fun F => F).
  - destruct (Z.eqb_spec x c) as [-> | X].
    + destruct H as [<- | H]; [exact (fun F => F) | exact (IH n H)].
    + destruct (split c t) as [| w r] eqn:S; [destruct (split_ne c t S) |].
      destruct H as [<- | H].
      * intros [-> | F]; [exact (X eq_refl) | exact (IH w (or_introl eq_refl) F)].
      * exact (IH n (or_intror H)).
Qed.
Lemma split_in c s : forall n x, In n (split c s) -> In x n -> In x s.
Proof.
  induction s as [| y t IH]; cbn [split]; intros n x H X.
  - destruct H as [<- | []]. destruct X.
  - destruct (y =? c).
    + destruct H as [<- | H]; [destruct X | right; exact (IH n x H X)].
    + destruct (split c t) as [| w r] eqn:S; [destruct (split_ne c t S) |].
      destruct H as [<- | H].
      * destruct X as [-> | X]; [left; reflexivity | right; exact (IH w x (or_introl eq_refl) X)].
      * right. exact (IH n x (or_intror H) X).
Qed.
Lemma split_plain c n : ~ In c n -> split c n = [n].
Proof.
  induction n as [| x t IH]; intros H; cbn [split]; [reflexivity |].
  destruct (Z.eqb_spec x c) as [-> | X]; [destruct H; left; reflexivity |].
  rewrite IH; [reflexivity |]. intros F. apply H. right. exact F.
Qed.
Lemma split_app c n t : ~ In c n -> split c (n ++ c :: t) = n :: split c t.
Proof.
  induction n as [| x r IH]; intros H; cbn [split app].
  - rewrite Z.eqb_refl. reflexivity.
  - destruct (Z.eqb_spec x c) as [-> | X]; [destruct H; left; reflexivity |].
    rewrite IH; [reflexivity |]. intros F. apply H. right. exact F.
Qed.
Lemma until_app p s : let (a, b) := until p s in s = a ++ b.
Proof.
  induction s as [| x t IH]; cbn [until]; [reflexivity |].
  destruct (p x); [reflexivity |]. destruct (until p t) as [a b]. cbn [app]. f_equal. exact IH.
Qed.
Lemma until_all p s : (forall x, In x s -> p x = false) -> until p s = (s, []).
Proof.
  induction s as [| x t IH]; intros H; cbn [until]; [reflexivity |].
  rewrite (H x (or_introl eq_refl)), (IH (fun y Y => H y (or_intror Y))). reflexivity.
Qed.
Lemma until_at p s x t : (forall y, In y s -> p y = false) -> p x = true -> until p (s ++ x :: t) = (s, x :: t).
Proof.
  induction s as [| y r IH]; intros H X; cbn [until app]; [rewrite X; reflexivity |].
  rewrite (H y (or_introl eq_refl)), (IH (fun z Z => H z (or_intror Z)) X). reflexivity.
Qed.
Lemma until_pre p s : forall x, In x (fst (until p s)) -> p x = false.
Proof.
  induction s as [| y t IH]; cbn [until]; intros x H; [destruct H |].
  destruct (p y) eqn:P; [destruct H |]. destruct (until p t) as [a b]. destruct H as [<- | H]; [exact P | exact (IH x H)].
Qed.
Lemma until_head p s x t : snd (until p s) = x :: t -> p x = true.
Proof.
  induction s as [| y r IH]; cbn [until]; intros H; [discriminate H |].
  destruct (p y) eqn:P; [injection H as <- _; exact P |]. destruct (until p r) as [a b]. exact (IH H).
Qed.

Lemma walk_names l : forall at_, Forall normal at_ -> Forall (fun n => ~ In 47 n) l -> Forall normal (walk at_ l).
Proof.
  induction l as [| n t IH]; intros at_ A L; cbn [walk]; [exact A |].
  inversion_clear L as [| ? ? L1 L2].
  destruct (seqb n [] || seqb n [46]) eqn:B; [exact (IH at_ A L2) |].
  apply orb_false_iff in B as [B1 B2]. apply seqb_ne in B1, B2.
  destruct (seqb n [46; 46]) eqn:C.
  - apply IH; [| exact L2]. clear - A. induction at_ as [| a r IH]; cbn [removelast]; [constructor |].
    inversion_clear A as [| ? ? A1 A2]. destruct r; [constructor |]. constructor; [exact A1 | exact (IH A2)].
  - apply seqb_ne in C. apply IH; [| exact L2]. apply Forall_app. split; [exact A |].
    constructor; [| constructor]. repeat split; assumption.
Qed.
Lemma walk_normal l : Forall normal l -> forall at_, walk at_ l = at_ ++ l.
Proof.
  induction 1 as [| n t (N1 & N2 & N3 & _) _ IH]; intros at_; cbn [walk]; [symmetry; apply app_nil_r |].
  apply seqb_ne in N1, N2, N3. rewrite N1, N2, N3. cbn [orb]. rewrite IH, <- app_assoc. reflexivity.
Qed.
Lemma walk_in l : forall at_ n, In n (walk at_ l) -> In n at_ \/ In n l.
Proof.
  induction l as [| m t IH]; intros at_ n H; cbn [walk] in H; [left; exact H |].
  destruct (seqb m [] || seqb m [46]).
  - destruct (IH at_ n H) as [I | I]; [left; exact I | right; right; exact I].
  - destruct (seqb m [46; 46]).
    + destruct (IH _ n H) as [I | I]; [| right; right; exact I]. left. clear - I.
      induction at_ as [| a r IH]; cbn [removelast] in I; [destruct I |].
      destruct r as [| b r]; [destruct I |]. destruct I as [-> | I]; [left; reflexivity | right; exact (IH I)].
    + destruct (IH _ n H) as [I | I]; [| right; right; exact I].
      apply in_app_iff in I as [I | [<- | []]]; [left; exact I | right; left; reflexivity].
Qed.

(** What realpath makes is normal, from a normal working directory. *)
Theorem lexical_normal cwd p : Forall normal cwd -> Forall normal (lexical cwd p).
Proof.
  intros C. unfold lexical. apply walk_names.
  - destruct (seqb (firstn 1 p) [47]); [constructor | exact C].
  - apply Forall_forall. intros n N. exact (split_no 47 p n N).
Qed.

(** How a URL from the root with or without a query is taken apart. *)
Definition clean (p : str) : Prop := firstn 1 p <> [47] /\ forall x, In x p -> x <> 0 /\ x <> 35 /\ x <> 59 /\ x <> 63.
Lemma after_none c s : ~ In c s -> after c s = (s, []).
Proof.
  intros H. unfold after, is. rewrite until_all; [reflexivity |].
  intros x X. apply Z.eqb_neq. intros ->. exact (H X).
Qed.
Lemma after_at c s t : ~ In c s -> after c (s ++ c :: t) = (s, t).
Proof.
  intros H. unfold after, is. rewrite until_at; [reflexivity | | apply Z.eqb_refl].
  intros x X. apply Z.eqb_neq. intros ->. exact (H X).
Qed.
Lemma splitparams_none s : ~ In 59 s -> splitparams s = (s, []).
Proof.
  intros H. unfold splitparams. pose proof (until_app (is 47) (rev s)) as U.
  destruct (until (is 47) (rev s)) as [a b].
  rewrite after_none.
  - f_equal. rewrite <- rev_app_distr, <- U. apply rev_involutive.
  - intros F. apply H. apply in_rev. rewrite U. apply in_app_iff. left. apply in_rev. exact F.
Qed.
Lemma urlparse_root s : seqb (firstn 2 (47 :: s)) [47; 47] = false ->
  urlparse (47 :: s) = let (a, frag) := after 35 (47 :: s) in let (a, query) := after 63 a in let (path, params) := splitparams a in
                       Ok (mkUrl (negb (seqb frag []) || negb (seqb params [])) path query).
Proof.
  intros H. unfold urlparse. cbn [until is]. change (is 58 47) with false. cbv iota.
  destruct (until (is 58) s) as [sch r]. replace (match r with [] => false | _ => alpha 47 && forallb schemechar (47 :: sch) end) with false by (destruct r; reflexivity).
  cbv iota. rewrite H. cbn [bind].
  destruct (after 35 (47 :: s)) as [a frag]. destruct (after 63 a) as [b query]. destruct (splitparams b) as [path params]. reflexivity.
Qed.
Lemma urlparse_clean p : clean p -> urlparse (47 :: p) = Ok (mkUrl false (47 :: p) []).
Proof.
  intros [H1 H2].
  assert (N : forall c, c = 35 \/ c = 59 \/ c = 63 -> ~ In c (47 :: p)).
  { intros c C [F | F]; [subst c; lia |]. destruct (H2 c F) as (_ & A & B & D). destruct C as [-> | [-> | ->]]; contradiction. }
  rewrite urlparse_root.
  - rewrite after_none by (apply N; tauto). cbv iota beta. rewrite after_none by (apply N; tauto). cbv iota beta.
    rewrite splitparams_none by (apply N; tauto). reflexivity.
  - apply seqb_ne. cbn [firstn]. intros F. apply H1. destruct p; [discriminate F |]. cbn [firstn] in F |- *. congruence.
Qed.
Lemma urlparse_query p q : clean p -> ~ In 35 q -> urlparse (47 :: p ++ 63 :: q) = Ok (mkUrl false (47 :: p) q).
Proof.
  intros [H1 H2] Q.
  assert (N : forall c, c = 35 \/ c = 59 \/ c = 63 -> ~ In c (47 :: p)).
  { intros c C [F | F]; [subst c; lia |]. destruct (H2 c F) as (_ & A & B & D). destruct C as [-> | [-> | ->]]; contradiction. }
  rewrite urlparse_root.
  - change (47 :: p ++ 63 :: q) with ((47 :: p) ++ 63 :: q).
    rewrite after_none.
    2: { intros F. apply in_app_iff in F as [F | [F | F]]; [exact (N 35 (or_introl eq_refl) F) | discriminate F | exact (Q F)]. }
    cbv iota beta. rewrite after_at by (apply N; tauto). cbv iota beta.
    rewrite splitparams_none by (apply N; tauto). reflexivity.
  - apply seqb_ne. cbn [firstn]. intros F. apply H1. destruct p as [| a p]; [discriminate F |]. cbn [firstn app] in F |- *. congruence.
Qed.
Lemma split_url l : Forall normal l -> l <> [] -> split 47 (url_of l) = [] :: l.
Proof.
  intros H N. unfold url_of. induction H as [| n t (_ & _ & _ & S) _ IH]; [destruct (N eq_refl) |].
  cbn [flat_map app split]. rewrite Z.eqb_refl. f_equal. destruct t as [| m t].
  - cbn [flat_map]. rewrite app_nil_r. apply split_plain. exact S.
  - assert (IH' := IH ltac:(discriminate)). cbn [flat_map app split] in IH' |- *.
    rewrite Z.eqb_refl in IH'. rewrite split_app by exact S. f_equal. injection IH' as IH'. exact IH'.
Qed.
Lemma lexical_url cwd l : Forall normal l -> l <> [] -> lexical cwd (url_of l) = l.
Proof.
  intros H N. unfold lexical. rewrite split_url by assumption.
  destruct l as [| n t]; [destruct (N eq_refl) |]. cbn [url_of flat_map app firstn]. rewrite (seqb_refl [47]).
  change (walk [] (n :: t) = n :: t). apply walk_normal. exact H.
Qed.
Lemma clean_url n t : Forall plain (n :: t) -> exists p, url_of (n :: t) = 47 :: p /\ clean p.
Proof.
  intros H. exists (n ++ url_of t). split; [reflexivity |]. split.
  - inversion_clear H as [| ? ? [(N & _ & _ & S) _] _]. destruct n as [| x n]; [destruct (N eq_refl) |].
    cbn [app firstn]. intros F. injection F as ->. apply S. left. reflexivity.
  - assert (G : forall l, Forall plain l -> forall x, In x (url_of l) -> x <> 0 /\ x <> 35 /\ x <> 59 /\ x <> 63).
    { intros l L x X. apply in_flat_map in X as (m & M & [<- | X]); [lia |].
      rewrite Forall_forall in L. exact (proj2 (L m M) x X). }
    inversion_clear H as [| ? ? N T]. intros x X. apply in_app_iff in X as [X | X]; [exact (proj2 N x X) | exact (G t T x X)].
Qed.
Lemma has_not c s : ~ In c s -> has c s = false.
Proof.
  intros H. unfold has. destruct (existsb (Z.eqb c) s) eqn:E; [| reflexivity].
  apply existsb_exists in E as (x & X & F). apply Z.eqb_eq in F. subst x. destruct (H X).
Qed.
Lemma clean_nul p : clean p -> has 0 (47 :: p) = false.
Proof. intros [_ H]. apply has_not. intros [F | F]; [discriminate F |]. destruct (H 0 F) as [F' _]. exact (F' eq_refl). Qed.
Lemma plain_normal l : Forall plain l -> Forall normal l.
Proof. intros H. eapply Forall_impl; [| exact H]. intros a A. exact (proj1 A). Qed.

(** * Files *)
(** Whatever the request: a file given out is found at a path that goes only
    down from the resource directory, wherever that is, and its contents are
    given. *)
Theorem http_contained v target path d :
  (forall p, Forall normal (v_real v p)) -> v_file v [] = None ->
  get v target = Ok (AFile path d) ->
  v_file v path = Some d /\ path <> [] /\ Forall normal path /\ forall base, walk base path = base ++ path.
Proof.
  intros R V H.
  assert (G : v_file v path = Some d /\ Forall normal path).
  2: { destruct G as [G1 G2]. split; [exact G1 |]. split; [intros ->; congruence |]. split; [exact G2 |]. intros base. apply walk_normal. exact G2. }
  unfold get in H. destruct (findnode v target) as [f | e] eqn:F; [| discriminate H]. cbn [bind] in H.
  destruct f as [a | [node parts]].
  - injection H as ->. exfalso. clear - F. unfold findnode in F.
    destruct (urlparse target) as [u | e]; [| discriminate F]. cbn [bind] in F.
    destruct (u_extra u); [discriminate F |]. destruct (has 0 (u_path u)); [discriminate F |].
    destruct (v_sys v) as [| y [| z t]]; try discriminate F. destruct (u_query u); [discriminate F |].
    destruct (values w_system (z0 :: s)); [discriminate F |]. destruct (index _ _ _); discriminate F.
  - assert (P : Forall normal (tl parts)).
    { unfold findnode in F. destruct (urlparse target) as [u | e]; [| discriminate F]. cbn [bind] in F.
      assert (X : exists p, parts = match v_real v p with [] => [[]] | l => l end).
      { exists (u_path u). clear H. destruct (u_extra u); [discriminate F |]. destruct (has 0 (u_path u)); [discriminate F |].
        destruct (v_sys v) as [| y [| z t]]; [discriminate F | injection F as _ <-; reflexivity |]. destruct (u_query u); [injection F as _ <-; reflexivity |].
        destruct (values w_system (z0 :: s)); [discriminate F |]. destruct (index _ _ _); [injection F as _ <-; reflexivity | discriminate F]. }
      destruct X as [p ->]. pose proof (R p) as Rp. destruct (v_real v p) as [| a l]; [constructor |].
      inversion_clear Rp. assumption. }
    destruct parts as [| p0 r]; [discriminate H |]. cbn [bind tl] in H, P.
    assert (NI : normal w_index). { repeat split; try discriminate. cbn. lia. }
    assert (NR : normal w_robots). { repeat split; try discriminate. cbn. lia. }
    destruct (seqb p0 w_robots).
    + rewrite seqb_refl in H. change (seqb w_robots w_public) with false in H. cbn [tl] in H.
      destruct (v_file v [w_robots]) as [d' |] eqn:E; [| discriminate H]. injection H as <- <-.
      split; [exact E | repeat constructor; exact NR || apply NR].
    + destruct (seqb p0 w_resources).
      * set (pp := match p0 :: r with [_; p] => if seqb p w_public then (p0 :: r) ++ [w_index] else p0 :: r | _ => p0 :: r end) in H.
        assert (Q : Forall normal (tl pp)).
        { unfold pp. destruct r as [| p [| p' r]]; [exact P | | exact P]. destruct (seqb p w_public); [| exact P].
          cbn [app tl]. constructor; [inversion P; assumption | constructor; [exact NI | constructor]]. }
        destruct (v_file v (tl pp)) as [d' |] eqn:E; [| discriminate H]. injection H as <- <-. split; assumption.
      * exfalso. clear - H. destruct (v_map v && _); [discriminate H |].
        destruct node as [i |].
        -- destruct (nth_error (v_sys v) i) as [y |]; [| discriminate H]. destruct (page _ _) as [[[l q] |] | e]; discriminate H.
        -- destruct (if seqb p0 w_m then _ else _) as [| [| ? ?] [| ? ?]]; discriminate H.
Qed.
Print Assumptions http_contained.

Lemma find_plain v p : v_sys v <> [] -> clean p ->
  findnode v (47 :: p) = Ok (inr (match v_sys v with [_] => Some O | _ => None end, match v_real v (47 :: p) with [] => [[]] | l => l end)).
Proof.
  intros V C. unfold findnode. rewrite (urlparse_clean p C). cbn [bind u_extra u_path u_query]. rewrite (clean_nul p C).
  destruct (v_sys v) as [| y [| z t]]; [destruct (V eq_refl) | reflexivity | reflexivity].
Qed.
(** Every file below the resource directory whose path has plain names can be
    had, from a server of any number of systems. *)
Theorem http_file v cwd path d :
  (forall p, v_real v p = lexical cwd p) -> v_sys v <> [] ->
  path <> [] -> path <> [w_public] -> Forall plain path -> v_file v path = Some d ->
  get v (url_of (w_resources :: path)) = Ok (AFile path d).
Proof.
  intros R V N NP P F.
  assert (W : plain w_resources). { split; [repeat split; try discriminate; cbn; lia | cbn; lia]. }
  assert (P' : Forall plain (w_resources :: path)) by (constructor; assumption).
  destruct (clean_url w_resources path P') as (p & E & C). unfold get. rewrite E, (find_plain v p V C), <- E, R.
  rewrite lexical_url; [| exact (plain_normal _ P') | discriminate].
  cbn [bind]. change (seqb w_resources w_robots) with false. cbv iota. rewrite seqb_refl.
  replace (match w_resources :: path with [_; q] => if seqb q w_public then (w_resources :: path) ++ [w_index] else w_resources :: path | _ => w_resources :: path end)
    with (w_resources :: path).
  - cbn [tl]. rewrite F. reflexivity.
  - destruct path as [| q [| q' r]]; [reflexivity | | reflexivity].
    destruct (seqb q w_public) eqn:S; [| reflexivity]. apply seqb_eq in S. subst q. destruct (NP eq_refl).
Qed.
Print Assumptions http_file.

(** * Systems *)
Lemma unquote_id s : ~ In 37 s -> unquote s = s.
Proof.
  induction s as [| x t IH]; intros H; [reflexivity |].
  assert (T : unquote t = t) by (apply IH; intros F; apply H; right; exact F).
  assert (X : (x =? 37) = false) by (apply Z.eqb_neq; intros ->; apply H; left; reflexivity).
  destruct t as [| a t]; [reflexivity |]. destruct t as [| b r]; [cbn [unquote]; reflexivity |].
  change (unquote (x :: a :: b :: r)) with
    (match hex a, hex b with
     | Some u, Some w => if x =? 37 then (if 16 * u + w <? 128 then 16 * u + w else 65533) :: unquote r else x :: unquote (a :: b :: r)
     | _, _ => x :: unquote (a :: b :: r) end).
  rewrite X, T. destruct (hex a), (hex b); reflexivity.
Qed.
Lemma unplus_id s : ~ In 37 s -> ~ In 43 s -> unplus s = s.
Proof.
  intros H P. unfold unplus. replace (map (fun x => if x =? 43 then 32 else x) s) with s; [exact (unquote_id s H) |].
  clear H. induction s as [| x t IH]; [reflexivity |]. cbn [map]. rewrite <- IH by (intros F; apply P; right; exact F).
  destruct (Z.eqb_spec x 43) as [-> | X]; [destruct P; left; reflexivity | reflexivity].
Qed.
Lemma alnum_not n c : alnum n -> ~ (48 <= c <= 57 \/ 65 <= c <= 90 \/ 97 <= c <= 122) -> ~ In c n.
Proof. intros [_ A] C F. exact (C (A c F)). Qed.
Lemma values_system n : alnum n -> values w_system (w_system ++ 61 :: n) = [n].
Proof.
  intros A. unfold values. rewrite split_plain.
  2: { intros F. apply in_app_iff in F as [F | [F | F]]; [cbn in F; lia | lia |]. revert F. apply alnum_not; [exact A | lia]. }
  cbn [flat_map]. rewrite until_at; [| intros y Y; apply Z.eqb_neq; intros ->; cbn in Y; lia | reflexivity].
  destruct n as [| x n]; [destruct (proj1 A eq_refl) |].
  change (unplus w_system) with w_system. rewrite seqb_refl.
  rewrite unplus_id; [reflexivity | apply alnum_not; [exact A | lia] | apply alnum_not; [exact A | lia]].
Qed.
Definition named (y : sys) (name : str) : Prop := exists n, y_name y = Some n /\ n <> [] /\ upper n = name.
Lemma named_dec y name : match y_name y with Some n => negb (seqb n []) && seqb (upper n) name | None => false end = true <-> named y name.
Proof.
  unfold named. destruct (y_name y) as [n |].
  - rewrite andb_true_iff, negb_true_iff, seqb_ne, seqb_eq. split.
    + intros [A B]. exists n. auto.
    + intros (m & M & B & C). injection M as <-. auto.
  - split; [discriminate |]. intros (n & N & _). discriminate N.
Qed.
Lemma index_at name l : forall k i y, nth_error l i = Some y -> named y name ->
  (forall j y', nth_error l j = Some y' -> named y' name -> j = i) -> index name k l = Some (k + i)%nat.
Proof.
  induction l as [| z t IH]; intros k i y Y N U; [destruct i; discriminate Y |]. cbn [index].
  destruct (match y_name z with Some n => _ | None => false end) eqn:E.
  - apply named_dec in E. rewrite <- (U O z eq_refl E). f_equal. lia.
  - destruct i as [| i].
    + injection Y as ->. apply named_dec in N. congruence.
    + rewrite (IH (S k) i y Y N); [f_equal; lia |]. intros j y' J N'. assert (S j = S i) by (exact (U (S j) y' J N')). lia.
Qed.
Lemma index_sound name l : forall k i, index name k l = Some i -> (k <= i)%nat /\ exists y, nth_error l (i - k) = Some y /\ named y name.
Proof.
  induction l as [| z t IH]; intros k i H; [discriminate H |]. cbn [index] in H.
  destruct (match y_name z with Some n => _ | None => false end) eqn:E.
  - injection H as <-. apply named_dec in E. split; [lia |]. exists z. rewrite Nat.sub_diag. split; [reflexivity | exact E].
  - destruct (IH (S k) i H) as (L & y & Y & N). split; [lia |]. exists y. replace (i - k)%nat with (S (i - S k)) by lia. split; [exact Y | exact N].
Qed.
Lemma find_named v p i y name : clean p -> nth_error (v_sys v) i = Some y -> alnum name -> named y (upper name) ->
  (forall j y', nth_error (v_sys v) j = Some y' -> named y' (upper name) -> j = i) ->
  findnode v (47 :: p ++ q_system name) = Ok (inr (Some i, match v_real v (47 :: p) with [] => [[]] | l => l end)).
Proof.
  intros C Y A N U. unfold findnode, q_system. rewrite (urlparse_query p _ C).
  2: { intros F. apply in_app_iff in F as [F | [F | F]]; [cbn in F; lia | lia |]. revert F. apply alnum_not; [exact A | lia]. }
  cbn [bind u_extra u_path u_query]. rewrite (clean_nul p C). pose proof (values_system name A) as VS.
  destruct (w_system ++ 61 :: name) as [| q0 q]; [discriminate VS |]. rewrite VS, (index_at _ _ O i y Y N U).
  destruct (v_sys v) as [| z [| z' t]]; [destruct i; discriminate Y | | reflexivity].
  destruct i as [| i]; [reflexivity |]. destruct i; discriminate Y.
Qed.

(** A system with a name that no other has can be asked, by that name in upper or
    lower case, for the pages of each layer it has: these are answered by that
    system and layer, in the form asked for. *)
Theorem http_reach v cwd i y name mobile l rest :
  (forall p, v_real v p = lexical cwd p) ->
  nth_error (v_sys v) i = Some y -> alnum name -> named y (upper name) ->
  (forall j y', nth_error (v_sys v) j = Some y' -> named y' (upper name) -> j = i) ->
  (y_bridge y = true <-> l = LBridge) -> Forall plain rest ->
  get v (url_of ((if mobile : bool then [w_m] else []) ++ word l :: rest) ++ q_system name) = Ok (APage mobile i l rest).
Proof.
  intros R Y A N U B P.
  assert (WL : plain (word l)). { destruct l; (split; [repeat split; try discriminate; cbn; lia | cbn; lia]). }
  assert (WM : plain w_m). { split; [repeat split; try discriminate; cbn; lia | cbn; lia]. }
  assert (PG : page y (word l :: rest) = Ok (Some (l, rest))).
  { unfold page. destruct l; cbn [word]; destruct (y_bridge y) eqn:E; try reflexivity; try (destruct (proj1 B eq_refl : _ = LBridge); fail);
      try (exfalso; assert (X := proj1 B eq_refl); discriminate X); try (exfalso; assert (X := proj2 B eq_refl); discriminate X). }
  destruct mobile; cbn [app].
  - assert (P' : Forall plain (w_m :: word l :: rest)) by (repeat (constructor; try assumption)).
    destruct (clean_url _ _ P') as (p & E & C). unfold get. rewrite E. cbn [app]. rewrite (find_named v p i y name C Y A N U), <- E, R.
    rewrite lexical_url; [| exact (plain_normal _ P') | discriminate].
    cbn [bind]. change (seqb w_m w_robots) with false. cbv iota. change (seqb w_m w_resources) with false. cbv iota.
    rewrite seqb_refl. cbn [tl hd]. replace (seqb (word l) w_map) with false by (destruct l; reflexivity). rewrite andb_false_r, Y, PG. reflexivity.
  - assert (P' : Forall plain (word l :: rest)) by (repeat (constructor; try assumption)).
    destruct (clean_url _ _ P') as (p & E & C). unfold get. rewrite E. cbn [app]. rewrite (find_named v p i y name C Y A N U), <- E, R.
    rewrite lexical_url; [| exact (plain_normal _ P') | discriminate].
    cbn [bind]. replace (seqb (word l) w_robots) with false by (destruct l; reflexivity). cbv iota.
    replace (seqb (word l) w_resources) with false by (destruct l; reflexivity). cbv iota.
    replace (seqb (word l) w_m) with false by (destruct l; reflexivity). cbn [hd].
    replace (seqb (word l) w_map) with false by (destruct l; reflexivity). rewrite andb_false_r, Y, PG. reflexivity.
Qed.
Print Assumptions http_reach.

Definition home (mobile : bool) : str := if mobile then w_m else [].
(** Without more in the path the summary is shown: of the system named, or of the
    only one; if there are several and none is named, the list of them. *)
Theorem http_home v cwd (mobile : bool) :
  (forall p, v_real v p = lexical cwd p) ->
  (forall i y name, nth_error (v_sys v) i = Some y -> alnum name -> named y (upper name) ->
     (forall j y', nth_error (v_sys v) j = Some y' -> named y' (upper name) -> j = i) ->
     get v (47 :: home mobile ++ q_system name) = Ok (APage mobile i (if y_bridge y then LBridge else LRouting) [[]])) /\
  (forall y, v_sys v = [y] -> get v (47 :: home mobile) = Ok (APage mobile 0 (if y_bridge y then LBridge else LRouting) [[]])) /\
  ((2 <= length (v_sys v))%nat -> get v (47 :: home mobile) = Ok (AList mobile)).
Proof.
  intros R.
  assert (C : clean (home mobile)).
  { destruct mobile; split; try discriminate; cbn; lia. }
  assert (G : forall t node, findnode v t = Ok (inr (node, if mobile then [w_m] else [[]])) ->
    get v t = match node with
              | None => Ok (AList mobile)
              | Some i => match nth_error (v_sys v) i with
                          | None => Err EIndex
                          | Some y => let* r := page y [[]] in Ok (match r with Some (l, r) => APage mobile i l r | None => AError 404 end) end end).
  { intros t node F. unfold get. rewrite F. destruct mobile; cbn [bind].
    - change (seqb w_m w_robots) with false. cbv iota. change (seqb w_m w_resources) with false. cbv iota. rewrite seqb_refl. cbn [tl hd].
      change (seqb [] w_map) with false. rewrite andb_false_r. reflexivity.
    - change (seqb [] w_robots) with false. cbv iota. change (seqb [] w_resources) with false. cbv iota. change (seqb [] w_m) with false. cbn [hd].
      change (seqb [] w_map) with false. rewrite andb_false_r. reflexivity. }
  assert (L : match v_real v (47 :: home mobile) with [] => [[]] | l => l end = if mobile then [w_m] else [[]]).
  { rewrite R. destruct mobile; reflexivity. }
  split; [| split].
  - intros i y name Y A N U. rewrite (G _ (Some i)).
    + rewrite Y. cbn [page bind]. destruct (y_bridge y); reflexivity.
    + etransitivity; [exact (find_named v _ i y name C Y A N U) |]. rewrite L. reflexivity.
  - intros y Y. rewrite (G _ (Some O)).
    + rewrite Y. cbn [nth_error page bind]. destruct (y_bridge y); reflexivity.
    + rewrite find_plain, L, Y; [reflexivity | rewrite Y; discriminate | exact C].
  - intros H. apply (G _ None). rewrite find_plain; [| intros F; rewrite F in H; cbn in H; lia | exact C]. rewrite L.
    destruct (v_sys v) as [| y [| z t]]; cbn [length] in H; [lia | lia | reflexivity].
Qed.
Print Assumptions http_home.

(** What is taken out of the target is part of it. *)
Lemma after_in c s : forall x, (In x (fst (after c s)) \/ In x (snd (after c s))) -> In x s.
Proof.
  intros x. unfold after. pose proof (until_app (is c) s) as U. destruct (until (is c) s) as [a b]. cbn [fst snd].
  rewrite U. intros [H | H]; apply in_app_iff; [left; exact H | right]. destruct b; [destruct H | right; exact H].
Qed.
Lemma splitparams_in s : forall x, In x (fst (splitparams s)) -> In x s.
Proof.
  intros x. unfold splitparams. pose proof (until_app (is 47) (rev s)) as U. destruct (until (is 47) (rev s)) as [a b].
  pose proof (after_in 59 (rev a) x) as A. destruct (after 59 (rev a)) as [c d]. cbn [fst snd] in A |- *.
  intros H. apply in_rev. rewrite U. apply in_app_iff. apply in_app_iff in H as [H | H].
  - right. apply in_rev. exact H.
  - left. apply in_rev. exact (A (or_introl H)).
Qed.
(** A target without scheme, place and fragment: what is left of it. *)
Lemma urlparse_sound t u : urlparse t = Ok u -> u_extra u = false ->
  exists lead s frag, t = lead ++ s ++ frag /\ (lead = [] \/ lead = [47; 47]) /\ (frag = [] \/ frag = [35]) /\
    u_query u = snd (after 63 s) /\ u_path u = fst (splitparams (fst (after 63 s))).
Proof.
  intros H E. unfold urlparse in H. destruct (until (is 58) t) as [sch r].
  set (scheme := match r with [] => false | _ => match sch with x :: _ => alpha x && forallb schemechar sch | [] => false end end) in H.
  assert (K : forall lead net s, t = lead ++ s -> (lead = [] \/ lead = [47; 47]) ->
    (let (s, frag) := after 35 s in let (s, query) := after 63 s in let (path, params) := splitparams s in
     Ok (mkUrl (scheme || negb (seqb net []) || negb (seqb frag []) || negb (seqb params [])) path query)) = Ok u ->
    exists lead s frag, t = lead ++ s ++ frag /\ (lead = [] \/ lead = [47; 47]) /\ (frag = [] \/ frag = [35]) /\
    u_query u = snd (after 63 s) /\ u_path u = fst (splitparams (fst (after 63 s)))).
  { intros lead net s T L G. unfold after at 1 in G. pose proof (until_app (is 35) s) as U. pose proof (until_head (is 35) s) as UH.
    destruct (until (is 35) s) as [a b]. cbn [snd] in UH.
    destruct (after 63 a) as [c query] eqn:AF. destruct (splitparams c) as [path params] eqn:SP. injection G as <-.
    cbn [u_extra u_query u_path] in E |- *. apply orb_false_iff in E as [E _]. apply orb_false_iff in E as [_ E].
    apply negb_false_iff, seqb_eq in E.
    exists lead, a, b. split; [rewrite <- U; exact T |]. split; [exact L |]. rewrite AF. cbn [fst snd]. rewrite SP. split; [| split; reflexivity].
    destruct b as [| x b]; [left; reflexivity | right]. cbn [tl] in E. subst b. f_equal. apply Z.eqb_eq. exact (UH x [] eq_refl). }
  destruct scheme eqn:SC.
  - exfalso. clear K. destruct (if seqb (firstn 2 (tl r)) [47; 47] then _ else _) as [[n s] | e]; [| discriminate H]. cbn [bind] in H.
    destruct (after 35 s) as [a frag]. destruct (after 63 a) as [c query]. destruct (splitparams c) as [path params]. injection H as <-. discriminate E.
  - destruct (seqb (firstn 2 t) [47; 47]) eqn:D.
    + pose proof (until_app (fun x => (x =? 47) || (x =? 63) || (x =? 35)) (skipn 2 t)) as U.
      destruct (until (fun x => (x =? 47) || (x =? 63) || (x =? 35)) (skipn 2 t)) as [n s].
      destruct (xorb (has 91 n) (has 93 n)); [discriminate H |]. cbn [bind] in H.
      assert (N : n = []).
      { destruct (after 35 s) as [a frag]. destruct (after 63 a) as [c query]. destruct (splitparams c) as [path params]. injection H as <-.
        cbn [u_extra] in E. apply orb_false_iff in E as [E _]. apply orb_false_iff in E as [E _]. cbn [orb] in E. apply negb_false_iff, seqb_eq in E. exact E. }
      subst n. cbn [app] in U. refine (K [47; 47] [] s _ (or_intror eq_refl) H).
      apply seqb_eq in D. rewrite <- U, <- D. symmetry. apply firstn_skipn.
    + cbn [bind] in H. exact (K [] [] t eq_refl (or_introl eq_refl) H).
Qed.
Lemma path_in t u : urlparse t = Ok u -> u_extra u = false -> forall x, In x (u_path u) -> In x t.
Proof.
  intros H E x X. destruct (urlparse_sound t u H E) as (lead & s & frag & -> & _ & _ & _ & P). rewrite P in X.
  apply in_app_iff. right. apply in_app_iff. left. apply (after_in 63). left. apply splitparams_in. exact X.
Qed.
Lemma query_in t u : urlparse t = Ok u -> u_extra u = false -> u_query u <> [] ->
  exists pre tail, t = pre ++ 63 :: u_query u ++ tail /\ ~ In 63 pre /\ (tail = [] \/ tail = [35]).
Proof.
  intros H E Q. destruct (urlparse_sound t u H E) as (lead & s & frag & -> & L & F & G & _).
  unfold after in G. pose proof (until_app (is 63) s) as U. pose proof (until_head (is 63) s) as UH. pose proof (until_pre (is 63) s) as UP.
  destruct (until (is 63) s) as [a b]. cbn [fst snd] in G, UH, UP. destruct b as [| x b]; [destruct (Q G) |]. cbn [tl] in G. subst b.
  assert (X : x = 63) by (apply Z.eqb_eq; exact (UH x _ eq_refl)). subst x.
  exists (lead ++ a), frag. split; [rewrite U, <- !app_assoc; reflexivity |]. split; [| exact F].
  intros I. apply in_app_iff in I as [I | I]; [destruct L as [-> | ->]; cbn in I; lia |]. specialize (UP 63 I). discriminate UP.
Qed.
Lemma values_in name q v : In v (values name q) -> exists nm vl, In (nm ++ 61 :: vl) (split 38 q) /\ unplus nm = name /\ unplus vl = v.
Proof.
  intros H. apply in_flat_map in H as (nv & N & H). pose proof (until_app (is 61) nv) as U. pose proof (until_head (is 61) nv) as UH.
  destruct (until (is 61) nv) as [a b]. cbn [snd] in UH. destruct b as [| x b]; [destruct H |].
  assert (X : x = 61) by (apply Z.eqb_eq; exact (UH x _ eq_refl)). subst x. destruct b as [| x b]; [destruct H |].
  destruct (seqb (unplus a) name) eqn:S; [| destruct H]. apply seqb_eq in S. destruct H as [<- | []].
  exists a, (x :: b). rewrite <- U. auto.
Qed.

(** A page shown is that of the only system, or of one that the request names,
    in the text after the question mark. *)
Theorem http_right v t mobile i l rest :
  get v t = Ok (APage mobile i l rest) ->
  exists y, nth_error (v_sys v) i = Some y /\ (y_bridge y = true <-> l = LBridge) /\
    (v_sys v = [y] \/
     exists pre q tail nm vl, t = pre ++ 63 :: q ++ tail /\ ~ In 63 pre /\ (tail = [] \/ tail = [35]) /\
       In (nm ++ 61 :: vl) (split 38 q) /\ unplus nm = w_system /\ named y (upper (unplus vl))).
Proof.
  intros H. unfold get in H. destruct (findnode v t) as [f | e] eqn:F; [| discriminate H]. cbn [bind] in H.
  unfold findnode in F. destruct (urlparse t) as [u | e] eqn:UP; [| discriminate F]. cbn [bind] in F.
  destruct (u_extra u) eqn:UE; [injection F as <-; discriminate H |].
  destruct (has 0 (u_path u)); [discriminate F |].
  set (parts := match v_real v (u_path u) with [] => [[]] | l => l end) in F.
  assert (K : forall node, f = inr (node, parts) -> exists y, node = Some i /\ nth_error (v_sys v) i = Some y /\ (y_bridge y = true <-> l = LBridge)).
  { clear F. intros node ->. destruct parts as [| p0 r]; [discriminate H |]. cbn [bind] in H.
    destruct (seqb (if seqb p0 w_robots then w_resources else p0) w_resources).
    { destruct (v_file v _); discriminate H. }
    destruct (v_map v && _); [discriminate H |].
    destruct node as [j |].
    - destruct (nth_error (v_sys v) j) as [y |] eqn:Y; [| discriminate H].
      match type of H with context[page y ?x] => set (pp := x) in H end.
      destruct (page y pp) as [[[l' r'] |] | e] eqn:P; [| discriminate H | discriminate H]. cbn [bind] in H. injection H as _ -> -> _.
      exists y. split; [reflexivity |]. split; [exact Y |]. clear - P. unfold page in P. clearbody pp. clear r. destruct (y_bridge y).
      + split; [intros _ | reflexivity]. destruct pp as [| [| c p] [| q r]]; try discriminate P;
          try (injection P as <- _; reflexivity); match type of P with context[seqb ?a ?b] => destruct (seqb a b); [injection P as <- _; reflexivity | discriminate P] end.
      + split; [discriminate |]. intros ->. exfalso.
        destruct pp as [| [| c p] [| q r]]; try discriminate P;
          repeat match type of P with context[if seqb ?a ?b then _ else _] => destruct (seqb a b); [discriminate P |] end; discriminate P.
    - match type of H with Ok (match ?x with _ => _ end) = _ => destruct x as [| [| ? ?] [| ? ?]]; discriminate H end. }
  destruct (v_sys v) as [| y0 [| y1 tl]] eqn:V; [discriminate F | |].
  - injection F as <-. destruct (K _ eq_refl) as (y & I & Y & B). injection I as <-. exists y. split; [exact Y |]. split; [exact B |]. left. injection Y as ->. reflexivity.
  - destruct (u_query u) as [| q0 q] eqn:Q.
    + injection F as <-. destruct (K _ eq_refl) as (y & I & _). discriminate I.
    + destruct (values w_system (q0 :: q)) as [| n ns] eqn:VS; [discriminate F |].
      destruct (index (upper n) 0 (y0 :: y1 :: tl)) as [j |] eqn:IX; [| injection F as <-; discriminate H].
      injection F as <-. destruct (K _ eq_refl) as (y & I & Y & B). injection I as ->.
      exists y. split; [exact Y |]. split; [exact B |]. right.
      destruct (index_sound _ _ _ _ IX) as (_ & y' & Y' & N). rewrite Nat.sub_0_r in Y'. assert (y' = y) by congruence. subst y'.
      destruct (query_in t u UP UE ltac:(rewrite Q; discriminate)) as (pre & tail & T & P & TT).
      destruct (values_in w_system (q0 :: q) n) as (nm & vl & I1 & I2 & I3); [rewrite VS; left; reflexivity |].
      exists pre, (q0 :: q), tail, nm, vl. rewrite Q in T. subst n. auto 10.
Qed.
Print Assumptions http_right.

(** Errors inside the server: with at least one system, a request without NUL and
    brackets is answered, unless it has a question mark and there are several
    systems. *)
Theorem http_answered v t e :
  v_sys v <> [] -> ~ In 0 t -> ~ In 91 t -> ~ In 93 t -> get v t = Err e ->
  e = EKey /\ (2 <= length (v_sys v))%nat /\ exists pre q, t = pre ++ 63 :: q.
Proof.
  intros V N0 N1 N2 H. unfold get in H. destruct (findnode v t) as [f | e'] eqn:F; cbn [bind] in H.
  - exfalso. destruct f as [a | [node parts]]; [discriminate H |].
    assert (K : parts <> [] /\ forall i, node = Some i -> nth_error (v_sys v) i <> None).
    { clear H. unfold findnode in F. destruct (urlparse t) as [u | e'']; [| discriminate F]. cbn [bind] in F.
      destruct (u_extra u); [discriminate F |]. destruct (has 0 (u_path u)); [discriminate F |].
      assert (PN : match v_real v (u_path u) with [] => [[]] | l => l end <> []) by (destruct (v_real v (u_path u)); discriminate).
      destruct (v_sys v) as [| y0 [| y1 tl]]; [discriminate F | |].
      - injection F as <- <-. split; [exact PN |]. intros i I. injection I as <-. discriminate.
      - destruct (u_query u) as [| q0 q]; [injection F as <- <-; split; [exact PN | discriminate] |].
        destruct (values w_system (q0 :: q)) as [| n ns]; [discriminate F |].
        destruct (index (upper n) 0 (y0 :: y1 :: tl)) as [j |] eqn:IX; [| discriminate F]. injection F as <- <-. split; [exact PN |].
        intros i I. injection I as <-. destruct (index_sound _ _ _ _ IX) as (_ & y' & Y' & _). rewrite Nat.sub_0_r in Y'. congruence. }
    destruct K as [K1 K2]. destruct parts as [| p0 r]; [destruct (K1 eq_refl) |]. cbn [bind] in H.
    destruct (seqb (if seqb p0 w_robots then w_resources else p0) w_resources); [discriminate H |].
    destruct (v_map v && _); [discriminate H |].
    destruct node as [i |]; [| discriminate H]. destruct (nth_error (v_sys v) i) as [y |] eqn:Y; [| exact (K2 i eq_refl Y)].
    match type of H with context[page y ?x] => set (pp := x) in H end.
    assert (PP : pp <> []). { unfold pp. match goal with |- match ?x with _ => _ end <> _ => destruct x; discriminate end. }
    destruct (page y pp) as [a | e'] eqn:P; [discriminate H |]. clear - P PP. clearbody pp. clear r.
    unfold page in P. destruct pp as [| [| c p] [| q r]]; [destruct (PP eq_refl) | discriminate P | | |];
      (destruct (y_bridge y); [discriminate P |]);
      repeat match type of P with context[if seqb ?a ?b then _ else _] => destruct (seqb a b); [discriminate P |] end; discriminate P.
  - injection H as ->. unfold findnode in F. destruct (urlparse t) as [u | e'] eqn:UP; cbn [bind] in F.
    + destruct (u_extra u) eqn:UE; [discriminate F |].
      rewrite has_not in F by (intros I; exact (N0 (path_in t u UP UE 0 I))).
      destruct (v_sys v) as [| y0 [| y1 tl]] eqn:VV; [destruct (V eq_refl) | discriminate F |].
      destruct (u_query u) as [| q0 q] eqn:Q; [discriminate F |].
      destruct (values w_system (q0 :: q)) as [| n ns]; [| destruct (index (upper n) 0 (y0 :: y1 :: tl)); discriminate F].
      injection F as <-. split; [reflexivity |]. split; [cbn [length]; lia |].
      destruct (query_in t u UP UE ltac:(rewrite Q; discriminate)) as (pre & tail & T & _). eexists pre, _. exact T.
    + exfalso. unfold urlparse in UP. pose proof (until_app (is 58) t) as U. destruct (until (is 58) t) as [sch r].
      set (s := if match r with [] => false | _ => match sch with x :: _ => alpha x && forallb schemechar sch | [] => false end end then tl r else t) in UP.
      assert (S : forall x, In x s -> In x t).
      { intros x X. unfold s in X. destruct (match r with [] => false | _ => _ end); [| exact X]. rewrite U. apply in_app_iff. right. destruct r; [destruct X | right; exact X]. }
      assert (G : forall (a : str * str) (k : str * str -> res url), (forall a, k a <> Err e') -> bind (Ok a) k <> Err e') by (intros a k K; exact (K a)).
      destruct (seqb (firstn 2 s) [47; 47]).
      * pose proof (until_app (fun x => (x =? 47) || (x =? 63) || (x =? 35)) (skipn 2 s)) as U2.
        destruct (until (fun x => (x =? 47) || (x =? 63) || (x =? 35)) (skipn 2 s)) as [n s'].
        assert (NI : forall x, In x n -> In x t).
        { intros x X. apply S. rewrite <- (firstn_skipn 2 s). apply in_app_iff. right. rewrite U2. apply in_app_iff. left. exact X. }
        rewrite (has_not 91), (has_not 93) in UP by (intros I; auto). cbn [xorb bind] in UP.
        destruct (after 35 s') as [a frag]. destruct (after 63 a) as [c query]. destruct (splitparams c) as [path params]. discriminate UP.
      * cbn [bind] in UP. destruct (after 35 s) as [a frag]. destruct (after 63 a) as [c query]. destruct (splitparams c) as [path params]. discriminate UP.
Qed.
Print Assumptions http_answered.

(** A request that names a scheme, so for another server, is refused. *)
Theorem http_scheme v x r t :
  (65 <= x <= 90 \/ 97 <= x <= 122) ->
  (forall y, In y r -> 65 <= y <= 90 \/ 97 <= y <= 122 \/ 48 <= y <= 57 \/ y = 43 \/ y = 45 \/ y = 46) ->
  ~ In 91 t -> ~ In 93 t -> get v ((x :: r) ++ 58 :: t) = Ok (AError 400).
Proof.
  intros X R N1 N2. unfold get, findnode, urlparse.
  rewrite until_at; [| | reflexivity].
  2: { intros y [<- | Y]; apply Z.eqb_neq; [lia |]. specialize (R y Y). lia. }
  assert (A : alpha x = true) by (unfold alpha; lia).
  assert (S : forallb schemechar (x :: r) = true).
  { apply forallb_forall. intros y [<- | Y]; unfold schemechar; [rewrite A; reflexivity |]. specialize (R y Y). unfold alpha. lia. }
  rewrite A, S. cbn [andb tl].
  assert (G : exists n s, (if seqb (firstn 2 t) [47; 47]
      then let (n, t) := until (fun x => (x =? 47) || (x =? 63) || (x =? 35)) (skipn 2 t) in if xorb (has 91 n) (has 93 n) then Err EValue else Ok (n, t)
      else Ok ([], t)) = Ok (n, s)).
  { destruct (seqb (firstn 2 t) [47; 47]); [| eauto].
    pose proof (until_app (fun x => (x =? 47) || (x =? 63) || (x =? 35)) (skipn 2 t)) as U2.
    destruct (until (fun x => (x =? 47) || (x =? 63) || (x =? 35)) (skipn 2 t)) as [n s'].
    assert (NI : forall z, In z n -> In z t).
    { intros z Z. rewrite <- (firstn_skipn 2 t). apply in_app_iff. right. rewrite U2. apply in_app_iff. left. exact Z. }
    rewrite (has_not 91), (has_not 93) by (intros I; auto). exists n, s'. reflexivity. }
  destruct G as (n & s & G). rewrite G. cbn [bind].
  destruct (after 35 s) as [a frag]. destruct (after 63 a) as [c query]. destruct (splitparams c) as [path params]. reflexivity.
Qed.
Print Assumptions http_scheme.

(** A colon after a character that no scheme has is part of the path. *)
Theorem http_noscheme a t y : let s := a ++ 58 :: t in
  ~ In 58 a -> In y a -> ~ (65 <= y <= 90 \/ 97 <= y <= 122 \/ 48 <= y <= 57 \/ y = 43 \/ y = 45 \/ y = 46) ->
  ~ In 35 s -> ~ In 63 s -> ~ In 59 s -> firstn 2 s <> [47; 47] -> urlparse s = Ok (mkUrl false s []).
Proof.
  cbv zeta. intros C Y N H35 H63 H59 F. unfold urlparse. rewrite until_at; [| intros z Z; apply Z.eqb_neq; intros ->; exact (C Z) | reflexivity].
  assert (S : match a with x :: _ => alpha x && forallb schemechar a | [] => false end = false).
  { destruct a as [| x r]; [reflexivity |]. destruct (forallb schemechar (x :: r)) eqn:E; [| apply andb_false_r].
    exfalso. rewrite forallb_forall in E. specialize (E y Y). unfold schemechar, alpha in E. lia. }
  rewrite S. destruct (seqb (firstn 2 (a ++ 58 :: t)) [47; 47]) eqn:E; [apply seqb_eq in E; congruence |]. cbn [bind].
  rewrite (after_none 35 _ H35), (after_none 63 _ H63), (splitparams_none _ H59). reflexivity.
Qed.
Print Assumptions http_noscheme.

(** A name can be written with percent signs, digits in upper or lower case: then any
    name of ASCII characters is found. *)
Definition digit (low : bool) (k : Z) : Z := if k <? 10 then 48 + k else if low then 87 + k else 55 + k.
Definition percent (low : bool) (n : str) : str := flat_map (fun x => [37; digit low (x / 16); digit low (x mod 16)]) n.
Lemma hex_digit low k : 0 <= k < 16 -> hex (digit low k) = Some k.
Proof.
  intros K. assert (D : k = 0 \/ k = 1 \/ k = 2 \/ k = 3 \/ k = 4 \/ k = 5 \/ k = 6 \/ k = 7 \/ k = 8 \/ k = 9 \/ k = 10 \/ k = 11 \/ k = 12 \/ k = 13 \/ k = 14 \/ k = 15) by lia.
  repeat destruct D as [-> | D]; try subst k; destruct low; reflexivity.
Qed.
Lemma unquote_percent low n : (forall x, In x n -> 0 <= x < 128) -> unquote (percent low n) = n.
Proof.
  induction n as [| x t IH]; intros H; [reflexivity |]. assert (X := H x (or_introl eq_refl)).
  change (percent low (x :: t)) with (37 :: digit low (x / 16) :: digit low (x mod 16) :: percent low t). cbn [unquote].
  rewrite !hex_digit by lia. change (37 =? 37) with true. cbv iota.
  replace (16 * (x / 16) + x mod 16) with x by lia. destruct (Z.ltb_spec x 128); [| lia]. f_equal. apply IH. intros y Y. apply H. right. exact Y.
Qed.
Lemma digit_range low k : 0 <= k < 16 -> 48 <= digit low k <= 57 \/ 65 <= digit low k <= 70 \/ 97 <= digit low k <= 102.
Proof. intros K. unfold digit. destruct (Z.ltb_spec k 10); [lia |]. destruct low; lia. Qed.
Lemma percent_chars low n : (forall x, In x n -> 0 <= x < 128) -> forall y, In y (percent low n) -> y = 37 \/ 48 <= y <= 57 \/ 65 <= y <= 70 \/ 97 <= y <= 102.
Proof.
  intros H y Y. apply in_flat_map in Y as (x & X & Y). specialize (H x X).
  destruct Y as [<- | [<- | [<- | []]]]; [left; reflexivity | |]; right; apply digit_range; lia.
Qed.
Theorem http_percent v cwd i y n low :
  (forall p, v_real v p = lexical cwd p) -> nth_error (v_sys v) i = Some y ->
  n <> [] -> (forall x, In x n -> 0 <= x < 128) -> y_name y = Some n ->
  (forall j y', nth_error (v_sys v) j = Some y' -> named y' (upper n) -> j = i) ->
  get v (47 :: 63 :: w_system ++ 61 :: percent low n) = Ok (APage false i (if y_bridge y then LBridge else LRouting) [[]]).
Proof.
  intros R Y N A NM U. pose proof (percent_chars low n A) as PC.
  assert (NY : named y (upper n)) by (exists n; auto).
  assert (VS : values w_system (w_system ++ 61 :: percent low n) = [n]).
  { unfold values. rewrite split_plain.
    2: { intros F. apply in_app_iff in F as [F | [F | F]]; [cbn in F; lia | lia |]. specialize (PC _ F). lia. }
    cbn [flat_map]. rewrite until_at; [| intros z Z; apply Z.eqb_neq; intros ->; cbn in Z; lia | reflexivity].
    destruct (percent low n) as [| p0 pr] eqn:E; [destruct n; [destruct (N eq_refl) | discriminate E] |].
    change (unplus w_system) with w_system. rewrite seqb_refl. cbn [app]. f_equal. rewrite <- E.
    unfold unplus. replace (map (fun x => if x =? 43 then 32 else x) (percent low n)) with (percent low n); [exact (unquote_percent low n A) |].
    rewrite E. rewrite <- (map_id (p0 :: pr)) at 1. apply map_ext_in. intros z Z. specialize (PC z Z). destruct (Z.eqb_spec z 43); [lia | reflexivity]. }
  assert (C : clean []) by (split; [discriminate | intros x []]).
  unfold get, findnode. change (47 :: 63 :: w_system ++ 61 :: percent low n) with (47 :: [] ++ 63 :: (w_system ++ 61 :: percent low n)).
  rewrite (urlparse_query [] _ C).
  2: { intros F. apply in_app_iff in F as [F | [F | F]]; [cbn in F; lia | lia |]. specialize (PC _ F). lia. }
  cbn [bind u_extra u_path u_query]. rewrite (clean_nul [] C).
  destruct (w_system ++ 61 :: percent low n) as [| q0 q]; [discriminate VS |]. rewrite VS, (index_at _ _ O i y Y NY U), R.
  replace (match v_sys v with [] => Err EIndex | [_] => _ | _ => _ end) with (@Ok (answer + (option nat * list str)) (inr (Some i, [[]]))).
  - cbn [bind]. change (seqb [] w_robots) with false. cbv iota. change (seqb [] w_resources) with false. cbv iota. change (seqb [] w_m) with false. cbn [hd].
    change (seqb [] w_map) with false. rewrite andb_false_r, Y. cbn [page bind]. destruct (y_bridge y); reflexivity.
  - destruct (v_sys v) as [| z [| z' t]]; [destruct i; discriminate Y | | reflexivity].
    destruct i as [| i]; [reflexivity |]. destruct i; discriminate Y.
Qed.
Print Assumptions http_percent.

(** Names are compared without regard to the case of letters, and of nothing else. *)
Theorem http_case a : (forall x, In x a -> 0 <= x < 128) -> forall b, (forall x, In x b -> 0 <= x < 128) ->
  (upper a = upper b <-> Forall2 (fun x y => x = y \/ (97 <= x <= 122 /\ y = x - 32) \/ (97 <= y <= 122 /\ x = y - 32)) a b).
Proof.
  assert (U : forall l, (forall x, In x l -> 0 <= x < 128) -> upper l = map (fun x => if (97 <=? x) && (x <=? 122) then x - 32 else x) l).
  { induction l as [| x t IH]; intros H; [reflexivity |]. unfold upper in *. cbn [flat_map map]. rewrite IH by (intros y Y; apply H; right; exact Y).
    specialize (H x (or_introl eq_refl)). destruct ((97 <=? x) && (x <=? 122)); [reflexivity |]. destruct (Z.eqb_spec x 223); [lia | reflexivity]. }
  intros A b B. rewrite (U a A), (U b B). clear U. revert b B. induction a as [| x s IH]; intros b B; destruct b as [| y t]; cbn [map].
  - split; [constructor | reflexivity].
  - split; [discriminate | intros F; inversion F].
  - split; [discriminate | intros F; inversion F].
  - specialize (IH (fun z Z => A z (or_intror Z)) t (fun z Z => B z (or_intror Z))).
    pose proof (A x (or_introl eq_refl)) as Ax. pose proof (B y (or_introl eq_refl)) as By.
    split.
    + intros E. injection E as E1 E2. constructor; [| apply IH, E2]. clear - E1 Ax By.
      destruct (Z.leb_spec 97 x), (Z.leb_spec x 122), (Z.leb_spec 97 y), (Z.leb_spec y 122); cbn [andb] in E1; lia.
    + intros F. inversion_clear F as [| ? ? ? ? F1 F2]. f_equal; [| apply IH, F2]. clear - F1 Ax By.
      destruct (Z.leb_spec 97 x), (Z.leb_spec x 122), (Z.leb_spec 97 y), (Z.leb_spec y 122); cbn [andb]; lia.
Qed.
Print Assumptions http_case.

(** * What the server does not do *)
(** A character of a file's name that is not in the request as it stands is never
    in the name of a file given out: percent signs are not decoded.  So a file
    whose name has a blank cannot be had, as a request cannot have one. *)
Theorem http_decode_refuted v cwd t path d x :
  (forall p, v_real v p = lexical cwd p) -> (forall n, In n cwd -> ~ In x n) -> ~ In x t ->
  ~ In x w_robots -> ~ In x w_index ->
  get v t = Ok (AFile path d) -> forall n, In n path -> ~ In x n.
Proof.
  intros R C T NR NI H n N X. unfold get in H. destruct (findnode v t) as [f | e] eqn:F; [| discriminate H]. cbn [bind] in H.
  unfold findnode in F. destruct (urlparse t) as [u | e] eqn:UP; [| discriminate F]. cbn [bind] in F.
  destruct (u_extra u) eqn:UE; [injection F as <-; discriminate H |].
  destruct (has 0 (u_path u)); [discriminate F |]. rewrite R in F.
  assert (L : forall m, In m (lexical cwd (u_path u)) -> ~ In x m).
  { intros m M I. unfold lexical in M. apply walk_in in M as [M | M].
    - destruct (seqb (firstn 1 (u_path u)) [47]); [destruct M | exact (C m M I)].
    - apply T. apply (path_in t u UP UE). exact (split_in 47 _ m x M I). }
  set (parts := match lexical cwd (u_path u) with [] => [[]] | l => l end) in F.
  assert (LP : forall m, In m parts -> ~ In x m).
  { unfold parts. destruct (lexical cwd (u_path u)); [| exact L]. intros m [<- | []] []. }
  assert (K : forall node, f = inr (node, parts) -> False).
  { clear F. intros node ->. clearbody parts. destruct parts as [| p0 r]; [discriminate H |]. cbn [bind] in H.
    destruct (seqb p0 w_robots).
    - rewrite seqb_refl in H. change (seqb w_robots w_public) with false in H. cbn [tl] in H.
      destruct (v_file v [w_robots]); [| discriminate H]. injection H as <- _. destruct N as [<- | []]. exact (NR X).
    - destruct (seqb p0 w_resources).
      + match type of H with context[v_file v (tl ?q)] => set (pp := q) in H end.
        destruct (v_file v (tl pp)); [| discriminate H]. injection H as <- _.
        assert (Q : forall m, In m (tl pp) -> In m r \/ m = w_index).
        { unfold pp. intros m. destruct r as [| p [| p' r]]; cbn [tl]; [tauto | | tauto]. destruct (seqb p w_public); cbn; intuition. }
        destruct (Q n N) as [I | ->]; [exact (LP n (or_intror I) X) | exact (NI X)].
      + destruct (v_map v && _); [discriminate H |]. destruct node as [i |].
        * destruct (nth_error (v_sys v) i) as [y |]; [| discriminate H]. destruct (page _ _) as [[[l q] |] | e]; discriminate H.
        * match type of H with Ok (match ?z with _ => _ end) = _ => destruct z as [| [| ? ?] [| ? ?]]; discriminate H end. }
  destruct (v_sys v) as [| y0 [| y1 tl]]; [discriminate F | injection F as <-; exact (K _ eq_refl) |].
  destruct (u_query u) as [| q0 q]; [injection F as <-; exact (K _ eq_refl) |].
  destruct (values w_system (q0 :: q)) as [| m ms]; [discriminate F |].
  destruct (index (upper m) 0 (y0 :: y1 :: tl)); [injection F as <-; exact (K _ eq_refl) | injection F as <-; discriminate H].
Qed.
Print Assumptions http_decode_refuted.

(** Two nodes, ALFA and an unnamed one, and a bridge, GAMMA; two files, one with a
    blank in its name. *)
Definition n_alfa : str := [65; 76; 70; 65].
Definition n_gamma : str := [71; 65; 77; 77; 65].
Definition f_css : str := [97; 46; 99].
Definition f_blank : str := [97; 32; 98].
Definition srv : server :=
  mkSrv [mkSys (Some n_alfa) false; mkSys (Some []) false; mkSys (Some n_gamma) true] true (lexical [[118]])
        (fun l => if list_eq_dec (list_eq_dec Z.eq_dec) l [f_css] then Some [1] else
                  if list_eq_dec (list_eq_dec Z.eq_dec) l [f_blank] then Some [2] else None).
(** With several systems, a file asked for with a query that names none is an
    exception in the server, as is the page of a system without a name, by the
    link to it that the server makes: there the name is empty. *)
Theorem http_query_refuted :
  exists v t, get v t = Ok (AFile [f_css] [1]) /\ get v (t ++ [63; 118; 61; 49]) = Err EKey /\
    get v (url_of [w_nsp] ++ q_system []) = Err EKey.
Proof. exists srv, (url_of [w_resources; f_css]). repeat split; reflexivity. Qed.
Print Assumptions http_query_refuted.

Example net_http :
  get srv (url_of [w_resources; f_css]) = Ok (AFile [f_css] [1]) /\
  (* /../x/./../resources//a.c and a way out of the directory *)
  get srv (url_of [[46; 46]; [120]; [46]; [46; 46]; w_resources; []; f_css]) = Ok (AFile [f_css] [1]) /\
  get srv (url_of [w_resources; [46; 46]; f_css]) = Ok (AError 400) /\
  get srv (url_of [w_resources; [97; 37; 50; 48; 98]]) = Ok (AError 404) /\
  (* /m/nsp/x?system=aLfA *)
  get srv (url_of [w_m; w_nsp; [120]] ++ q_system [97; 76; 102; 65]) = Ok (APage true 0 LNsp [[120]]) /\
  get srv (47 :: q_system n_gamma) = Ok (APage false 2 LBridge [[]]) /\
  get srv (url_of [w_nsp] ++ q_system n_gamma) = Ok (AError 404) /\
  get srv (url_of [w_nsp]) = Ok (AError 400) /\
  get srv [47] = Ok (AList false) /\
  get srv (url_of [w_map]) = Ok (AMap false []) /\
  get srv (47 :: q_system [66]) = Ok (AError 404) /\
  get srv [104; 58; 47; 47; 97] = Ok (AError 400).
Proof. repeat split; reflexivity. Qed.
Example net_http_hyps :
  (forall p, Forall normal (v_real srv p)) /\ Forall plain [f_css] /\ alnum n_alfa /\ named (mkSys (Some n_alfa) false) (upper [97; 76; 102; 65]) /\
  (forall j y', nth_error (v_sys srv) j = Some y' -> named y' (upper n_alfa) -> j = 0%nat).
Proof.
  split; [| split; [| split; [| split]]].
  - intros p. apply lexical_normal. repeat constructor; cbn; try discriminate; lia.
  - constructor; [| constructor]. split; [repeat split; try discriminate; cbn; lia | cbn; lia].
  - split; [discriminate | cbn; lia].
  - exists n_alfa. repeat split. discriminate.
  - intros [| [| [| [|]]]] y' Y (nm & N & E & U); cbn in Y; try discriminate Y; [reflexivity | |]; injection Y as <-; cbn in N; injection N as <-; try (destruct (E eq_refl)); discriminate U.
Qed.
