(** C73: what network management shows of nodes and areas. *)
From Coq Require Import Sorted FinFun.
From Verif Require Import Base ShowModel.

(** *** What is meant *)
(** A node whose tables make sense. *)
Definition sane (nd : node) : Prop :=
  0 <= n_maxnodes nd < 1024 /\ 0 < n_me nd /\
  (forall t, 1 <= t <= n_maxnodes nd -> (n_oadj nd t = OSelf <-> t = tid_of (n_me nd))) /\
  (forall e1 e2, In e1 (n_db nd) -> In e2 (n_db nd) -> e_loop e1 = None -> e_loop e2 = None -> e_num e1 = e_num e2 -> e1 = e2) /\
  (forall e, In e (n_db nd) -> (e_loop e = None <-> e_num e <> 0)).
Definition plural (q : query) : Prop := match q with QOne _ | QName _ => False | _ => True end.
Definition brief (i : info) : Prop := i = ISum \/ i = IStat.
Definition router (nd : node) : Prop := n_kind nd = KL1 \/ n_kind nd = KL2.
(** The circuits asked about. *)
Definition asked (qu : qual) (c : list Z) : Prop := match qu with QuAll => True | QuPlural => False | QuCirc s => c = s end.
(** Nodes the database has, neighbours, nodes of the routing table. *)
Definition known_to (nd : node) (k : Z) : Prop := exists e, In e (n_db nd) /\ e_num e = k.
Definition connected (nd : node) (k : Z) : Prop := In k (n_conns nd).
Definition neighbour (nd : node) (qu : qual) (k : Z) : Prop := exists c ty, In c (n_circs nd) /\ asked qu (c_name c) /\ In (k, ty) (c_up c).
Definition in_table (nd : node) (k : Z) : Prop := router nd /\ area_of k = area_of (n_me nd) /\ 1 <= tid_of k <= n_maxnodes nd.
Definition reachable (nd : node) (qu : qual) (k : Z) : Prop := in_table nd k /\ exists a, n_oadj nd (tid_of k) = OAdj a /\ asked qu (a_circ a).
Definition out_of_reach (nd : node) (k : Z) : Prop := in_table nd k /\ n_oadj nd (tid_of k) = ONone.
(** What NSP has to say something about. *)
Definition by_nsp (nd : node) (q : query) (i : info) (k : Z) : Prop :=
  match q with
  | QKnown | QArea _ | QTid _ => known_to nd k
  | QActive => known_to nd k /\ (k = n_me nd \/ connected nd k)
  | QSig => known_to nd k /\ (k = n_me nd \/ connected nd k) \/
            exists e, In e (n_db nd) /\ e_num e = k /\ (brief i /\ e_delay e <> 0 \/ i = ICount /\ e_used e = true)
  | QLoop => exists e, In e (n_db nd) /\ e_num e = k /\ e_loop e <> None
  | _ => False
  end.
(** What routing has. *)
Definition by_routing (nd : node) (q : query) (i : info) (qu : qual) (k : Z) : Prop :=
  match i with
  | ICount => False
  | IChar => qu <> QuPlural /\ q <> QAdj /\ q <> QLoop /\ k = n_me nd
  | _ => match q with
         | QLoop => False
         | QAdj => neighbour nd qu k
         | QKnown => neighbour nd qu k \/ reachable nd qu k \/ qu <> QuPlural /\ out_of_reach nd k
         | _ => neighbour nd qu k \/ reachable nd qu k
         end
  end.
Definition selected (q : query) (k : Z) : Prop := match q with QArea a => area_of k = a | QTid t => tid_of k = t | _ => True end.

(** *** Lookups *)
Fixpoint get (d : resp) (k : Z) : option rec := match d with [] => None | (k', r) :: t => if k' =? k then Some r else get t k end.
Definition or_fresh (nd : node) (k : Z) (o : option rec) : rec := match o with Some r => r | None => fresh (n_db nd) k end.
Lemma get_upd : forall nd d k f k', get (upd (n_db nd) d k f) k' = if k =? k' then Some (f (or_fresh nd k (get d k))) else get d k'.
Proof.
  intros nd d k f k'. induction d as [|[x r] d IH]; cbn [upd get]; [reflexivity|].
  destruct (Z.eqb_spec x k) as [-> | N]; cbn [get].
  - destruct (k =? k'); reflexivity.
  - destruct (Z.eqb_spec x k') as [-> | N2]; [|exact IH]. destruct (Z.eqb_spec k k'); [congruence | reflexivity].
Qed.
Lemma has_get : forall d k, has d k = match get d k with Some _ => true | None => false end.
Proof. induction d as [|[x r] d IH]; intro k; [reflexivity|]. cbn [has get]. destruct (x =? k); [reflexivity | apply IH]. Qed.
Lemma upd_keys : forall nd d k f x, In x (map fst (upd (n_db nd) d k f)) <-> x = k \/ In x (map fst d).
Proof.
  intros nd d k f x. induction d as [|[y r] d IH]; cbn [upd map fst In]; [intuition|].
  destruct (Z.eqb_spec y k) as [-> | N]; cbn [map fst In]; [intuition|]. rewrite IH. intuition.
Qed.
Lemma upd_nodup : forall nd d k f, NoDup (map fst d) -> NoDup (map fst (upd (n_db nd) d k f)).
Proof.
  intros nd d k f. induction d as [|[y r] d IH]; intro N; cbn [upd map fst]; [constructor; [intros [] | constructor]|].
  cbn [map fst] in N. inversion N as [|? ? NI N2]; subst. destruct (Z.eqb_spec y k) as [-> | NE]; cbn [map fst]; [constructor; assumption|].
  constructor; [|apply IH, N2]. intro I. apply upd_keys in I as [E | I]; [congruence | exact (NI I)].
Qed.
Lemma get_in : forall d k r, NoDup (map fst d) -> (In (k, r) d <-> get d k = Some r).
Proof.
  induction d as [|[y v] d IH]; intros k r N; cbn [get In]; [split; [intros [] | discriminate]|]. cbn [map fst] in N. inversion N as [|? ? NI N2]; subst.
  destruct (Z.eqb_spec y k) as [-> | NE].
  - split; [intros [E | I]; [congruence|]; contradiction NI; apply (in_map fst) in I; exact I | intro E; left; congruence].
  - rewrite <- (IH k r N2). split; [intros [E | I]; [congruence | exact I] | intro I; right; exact I].
Qed.
Lemma get_none : forall d k, get d k = None <-> ~ In k (map fst d).
Proof.
  induction d as [|[y v] d IH]; intro k; cbn [get map fst In]; [intuition|]. destruct (Z.eqb_spec y k) as [-> | N]; [split; [discriminate | intro H; contradiction H; left; reflexivity]|].
  rewrite IH. intuition.
Qed.
Lemma keys_get : forall d k, In k (map fst d) <-> get d k <> None.
Proof. intros d k. rewrite get_none. destruct (in_dec Z.eq_dec k (map fst d)); tauto. Qed.

(** *** The order *)
Lemma insert_in : forall x l y, In y (insert x l) <-> y = x \/ In y l.
Proof. intros x l y. induction l as [|z l IH]; cbn [insert In]; [intuition|]. destruct (fst x <=? fst z); cbn [In]; [|rewrite IH]; intuition. Qed.
Lemma sort_in : forall l y, In y (sort l) <-> In y l.
Proof. induction l as [|x l IH]; intro y; cbn [sort In]; [tauto|]. rewrite insert_in, IH. intuition. Qed.
Definition under (x y : Z * rec) : Prop := fst x < fst y.
Lemma sort_sorted : forall l, NoDup (map fst l) -> StronglySorted under (sort l).
Proof.
  assert (I : forall x l, StronglySorted under l -> ~ In (fst x) (map fst l) -> StronglySorted under (insert x l)).
  { intros x l S. induction S as [|z l S IH F]; intro N; cbn [insert]; [repeat constructor|]. destruct (Z.leb_spec (fst x) (fst z)) as [L | L].
    - cbn [map In] in N. assert (fst x < fst z) by lia. constructor; [constructor; assumption|]. constructor; [assumption|].
      rewrite Forall_forall in *. intros y Y. specialize (F y Y). unfold under in *. lia.
    - constructor; [apply IH; intro X; apply N; right; exact X|]. rewrite Forall_forall in *. intros y Y. apply insert_in in Y as [-> | Y]; [exact L | apply F, Y]. }
  induction l as [|x l IH]; intro N; cbn [sort]; [constructor|]. cbn [map] in N. inversion N as [|? ? NI N2]; subst. apply I; [apply IH, N2|].
  intro X. apply NI. apply in_map_iff in X as (y & E & Y). rewrite sort_in in Y. rewrite <- E. apply in_map, Y.
Qed.
Lemma filter_sorted : forall (p : Z * rec -> bool) l, StronglySorted under l -> StronglySorted under (filter p l).
Proof.
  intros p l S. induction S as [|x l S IH F]; cbn [filter]; [constructor|]. destruct (p x); [|exact IH]. constructor; [exact IH|].
  rewrite Forall_forall in *. intros y Y. apply filter_In in Y as [Y _]. apply F, Y.
Qed.
Lemma sorted_in : forall me q d x, In x (sorted me q d) <-> In x d /\ matches q (fst x) = true.
Proof.
  intros me q d x. unfold sorted. rewrite in_app_iff, !filter_In, sort_in, filter_In. destruct (fst x =? me); cbn [negb]; intuition discriminate.
Qed.
Lemma filter_nodup : forall (p : Z * rec -> bool) l, NoDup (map fst l) -> NoDup (map fst (filter p l)).
Proof.
  intros p l. induction l as [|x l IH]; intro N; [constructor|]. cbn [map] in N. inversion N as [|? ? NI N2]; subst. cbn [filter]. destruct (p x); [|apply IH, N2].
  cbn [map]. constructor; [|apply IH, N2]. intro I. apply NI. apply in_map_iff in I as (y & E & Y). apply filter_In in Y as [Y _]. rewrite <- E. apply in_map, Y.
Qed.
Lemma sorted_shape : forall me q d, NoDup (map fst d) -> exists first rest, sorted me q d = first ++ rest /\
  (first = [] \/ exists r, first = [(me, r)]) /\ StronglySorted under rest /\ ~ In me (map fst rest).
Proof.
  intros me q d N. unfold sorted. set (d1 := filter (fun x => matches q (fst x)) d). assert (N1 : NoDup (map fst d1)) by (apply filter_nodup, N).
  eexists. eexists. split; [reflexivity|]. split; [|split; [apply filter_sorted, sort_sorted, N1|]].
  - clear -N1. induction d1 as [|[k r] d1 IH]; [left; reflexivity|]. cbn [map fst] in N1. inversion N1 as [|? ? NI N2]; subst. cbn [filter fst]. destruct (Z.eqb_spec k me) as [-> | NE]; [|apply IH, N2].
    right. exists r. f_equal. destruct (IH N2) as [E | (r2 & E)]; [exact E|]. contradiction NI. assert (I : In (me, r2) (filter (fun x => fst x =? me) d1)) by (rewrite E; left; reflexivity).
    apply filter_In in I as [I _]. apply (in_map fst) in I. exact I.
  - intro I. apply in_map_iff in I as (y & E & Y). apply filter_In in Y as [_ Y]. rewrite E, Z.eqb_refl in Y. discriminate Y.
Qed.

(** *** NSP's part *)
Lemma links_spec : forall nd k, links nd k = 0 <-> ~ connected nd k.
Proof.
  intros nd k. unfold links, connected. induction (n_conns nd) as [|c l IH]; cbn [filter In]; [cbn; tauto|].
  destruct (Z.eqb_spec c k) as [-> | N]; [cbn [length]; split; [lia | intro H; contradiction H; left; reflexivity]|]. rewrite IH. intuition.
Qed.
Definition blank (r : rec) : Prop :=
  r_exec r = false /\ r_state r = None /\ r_circ r = None /\ r_next r = None /\ r_hops r = None /\ r_cost r = None /\ r_type r = None.
Definition shown_links (nd : node) (i : info) (k : Z) : option Z := if sumstat i then if links nd k =? 0 then None else Some (links nd k) else None.
Definition shown_d (i : info) (e : ent) : option Z := if sumstat i then if e_delay e =? 0 then None else Some (shown_delay (e_delay e)) else None.
Definition good (nd : node) (q : query) (i : info) (k : Z) (r : rec) : Prop :=
  exists e, In e (n_db nd) /\ e_loop e = None /\ e_num e = k /\ nsp_wants nd q i e = true /\ r_name r = e_name e /\ r_links r = shown_links nd i k /\ r_delay r = shown_d i e /\ r_loop r = None.
Lemma nsp_fold : forall nd q i, sane nd -> forall es d, incl es (n_db nd) ->
  (forall k r, get d k = Some r -> blank r) -> (forall k r, k <> 0 -> get d k = Some r -> good nd q i k r) -> NoDup (map fst d) ->
  let d' := fold_left (fun d e => if nsp_wants nd q i e then nsp_node nd i e d else d) es d in
  (forall k r, get d' k = Some r -> blank r) /\ (forall k r, k <> 0 -> get d' k = Some r -> good nd q i k r) /\ NoDup (map fst d') /\
  forall k, get d' k <> None <-> get d k <> None \/ exists e, In e es /\ e_num e = k /\ nsp_wants nd q i e = true.
Proof.
  intros nd q i S es. induction es as [|e es IH]; intros d I B G N; cbn [fold_left]; [split; [exact B|split; [exact G|split; [exact N|]]]; intro k; split; [auto | intros [H | (e & [] & _)]; exact H]|].
  assert (Ie : In e (n_db nd)) by (apply I; left; reflexivity). assert (I2 : incl es (n_db nd)) by (intros x X; apply I; right; exact X).
  destruct (nsp_wants nd q i e) eqn:W.
  - destruct (IH (nsp_node nd i e d)) as (A1 & A2 & A3 & A4); try assumption.
    + intros k r. unfold nsp_node. rewrite get_upd. destruct (Z.eqb_spec (e_num e) k) as [-> | NE]; [|apply B]. intro E. injection E as <-.
      unfold blank. cbn [r_exec r_state r_circ r_next r_hops r_cost r_type]. destruct (get d k) as [r|] eqn:D; [apply (B k r D) | cbn; repeat split].
    + intros k r K. unfold nsp_node. rewrite get_upd. destruct (Z.eqb_spec (e_num e) k) as [E0 | NE]; [|apply G, K]. intro E. injection E as <-. subst k.
      assert (L : e_loop e = None) by (apply S; assumption).
      exists e. cbn [r_name r_links r_delay r_loop]. rewrite L. do 4 (split; [solve [assumption | reflexivity]|]). split; [reflexivity|]. unfold shown_links, shown_d.
      assert (H : match get d (e_num e) with Some r => good nd q i (e_num e) r | None => True end) by (destruct (get d (e_num e)) as [r|] eqn:D; [apply G; assumption | exact Logic.I]).
      destruct (get d (e_num e)) as [r|]; cbn [or_fresh].
      * destruct H as (e' & J & L' & E' & _ & _ & HL & HD & HC). assert (e' = e) as -> by (apply S; assumption). unfold shown_links, shown_d in *.
        rewrite HL, HD, HC. destruct (sumstat i), (links nd (e_num e) =? 0), (e_delay e =? 0), i; repeat split; reflexivity.
      * cbn. destruct (sumstat i), (links nd (e_num e) =? 0), (e_delay e =? 0), i; repeat split; reflexivity.
    + apply upd_nodup, N.
    + split; [exact A1|split; [exact A2|split; [exact A3|]]]. intro k. rewrite A4. unfold nsp_node. rewrite get_upd. destruct (Z.eqb_spec (e_num e) k) as [E0 | NE].
      * split; [intros _; right; exists e; cbn [In]; auto | intros _; left; discriminate].
      * split; [intros [H | (x & X & E & W')]; [left; exact H | right; exists x; cbn [In]; auto] | intros [H | (x & [<- | X] & E & W')]; [left; exact H | contradiction | right; exists x; auto]].
  - destruct (IH d I2 B G N) as (A1 & A2 & A3 & A4). split; [exact A1|split; [exact A2|split; [exact A3|]]]. intro k. rewrite A4.
    split; [intros [H | (x & X & E & W')]; [left; exact H | right; exists x; cbn [In]; auto] | intros [H | (x & [<- | X] & E & W')]; [left; exact H | congruence | right; exists x; auto]].
Qed.
Lemma brief_sumstat : forall i, sumstat i = true <-> brief i.
Proof. intros []; cbn; unfold brief; split; intro H; try discriminate H; auto; destruct H as [H | H]; discriminate H. Qed.
Lemma wants_spec : forall nd q i k, plural q -> q <> QAdj ->
  ((exists e, In e (n_db nd) /\ e_num e = k /\ nsp_wants nd q i e = true) <-> by_nsp nd q i k).
Proof.
  intros nd q i k P NA. assert (LK : forall x, negb (links nd x =? 0) = true <-> connected nd x).
  { intro x. rewrite negb_true_iff, Z.eqb_neq, links_spec. unfold connected. destruct (in_dec Z.eq_dec x (n_conns nd)); tauto. }
  destruct q; try contradiction; cbn [by_nsp]; unfold nsp_wants, known_to; cbn [q_known orb andb].
  - split; [intros (e & I & E & _) | intros (e & I & E)]; exists e; auto.
  - split; [intros (e & I & E & W) | intros ((e & I & E) & H)].
    + split; [exists e; auto|]. rewrite andb_true_r in W. destruct (Z.eqb_spec (e_num e) (n_me nd)); [left; congruence|]. right. rewrite LK, E in W. exact W.
    + exists e. split; [exact I|]. split; [exact E|]. rewrite andb_true_r. destruct (Z.eqb_spec (e_num e) (n_me nd)) as [M | M]; [reflexivity|].
      destruct H as [H | H]; [congruence|]. rewrite <- E in H. apply LK, H.
  - split; intros (e & I & E & W); exists e; (split; [exact I|]); (split; [exact E|]).
    + rewrite andb_false_r in W. destruct (e_loop e); [discriminate | discriminate W].
    + rewrite andb_false_r. destruct (e_loop e); [reflexivity | contradiction W; reflexivity].
  - split.
    + intros (e & I & E & W). rewrite andb_true_r in W. destruct (Z.eqb_spec (e_num e) (n_me nd)); [left; split; [exists e; auto | left; congruence]|].
      apply orb_prop in W as [W | W]; [right | left; split; [exists e; auto|]; right; rewrite LK, E in W; exact W].
      exists e. split; [exact I|]. split; [exact E|]. apply orb_prop in W as [W | W]; apply andb_prop in W as [W1 W2]; [right | left].
      * destruct i; try discriminate W1. auto.
      * rewrite brief_sumstat in W1. split; [exact W1|]. destruct (Z.eqb_spec (e_delay e) 0); [discriminate W2 | assumption].
    + intros [((e & I & E) & H) | (e & I & E & H)]; exists e; (split; [exact I|]); (split; [exact E|]); rewrite andb_true_r; destruct (Z.eqb_spec (e_num e) (n_me nd)) as [M | M]; try reflexivity.
      * destruct H as [H | H]; [congruence|]. rewrite <- E in H. apply LK in H. rewrite H. apply orb_true_r.
      * apply orb_true_intro. left. destruct H as [[H1 H2] | [-> ->]]; [|reflexivity]. apply brief_sumstat in H1. rewrite H1. destruct (Z.eqb_spec (e_delay e) 0); [contradiction | apply orb_true_r].
  - split; [intros (e & I & E & _) | intros (e & I & E)]; exists e; auto.
  - split; [intros (e & I & E & _) | intros (e & I & E)]; exists e; auto.
Qed.
Definition nsp_done (nd : node) (q : query) (i : info) (d : resp) : Prop :=
  (forall k r, get d k = Some r -> blank r) /\ (forall k r, k <> 0 -> get d k = Some r -> good nd q i k r) /\ NoDup (map fst d) /\
  forall k, get d k <> None <-> by_nsp nd q i k.
Lemma nsp_stage : forall nd q i, sane nd -> plural q -> nsp_done nd q i (nsp_read nd q i []).
Proof.
  intros nd q i S P. assert (A : q = QAdj \/ q <> QAdj) by (destruct q; auto; right; discriminate). destruct A as [-> | NA].
  - cbn [nsp_read by_nsp]. split; [discriminate|split; [discriminate|split; [constructor|]]]. cbn. tauto.
  - assert (E : nsp_read nd q i [] = fold_left (fun d e => if nsp_wants nd q i e then nsp_node nd i e d else d) (n_db nd) []) by (destruct q; try reflexivity; contradiction).
    destruct (nsp_fold nd q i S (n_db nd) [] (fun x X => X)) as (A1 & A2 & A3 & A4); [discriminate | discriminate | apply NoDup_nil|].
    rewrite E. split; [exact A1|split; [exact A2|split; [exact A3|]]]. intro k. rewrite A4, <- (wants_spec nd q i k P NA). cbn [get]. tauto.
Qed.

(** *** What routing changes *)
Definition ext (r r' : rec) : Prop := r_name r' = r_name r /\ r_links r' = r_links r /\ r_delay r' = r_delay r /\ r_loop r' = r_loop r /\ r_exec r' = r_exec r.
Definition grows (nd : node) (d d' : resp) : Prop :=
  forall k, (get d k <> None -> get d' k <> None) /\ forall r', get d' k = Some r' -> ext (or_fresh nd k (get d k)) r'.
Lemma ext_refl : forall r, ext r r.
Proof. intro r. repeat split. Qed.
Lemma grows_refl : forall nd d, grows nd d d.
Proof. intros nd d k. split; [auto|]. intros r' E. rewrite E. apply ext_refl. Qed.
Lemma grows_trans : forall nd d1 d2 d3, grows nd d1 d2 -> grows nd d2 d3 -> grows nd d1 d3.
Proof.
  intros nd d1 d2 d3 A B k. destruct (A k) as [A1 A2], (B k) as [B1 B2]. split; [auto|]. intros r' E. apply B2 in E.
  destruct (get d2 k) as [r2|] eqn:D2.
  - specialize (A2 r2 eq_refl). destruct A2 as (X1 & X2 & X3 & X4 & X5), E as (Y1 & Y2 & Y3 & Y4 & Y5). cbn [or_fresh] in *. repeat split; congruence.
  - destruct (get d1 k) as [r1|]; [contradiction A1; [discriminate | reflexivity] | exact E].
Qed.
Lemma grows_upd : forall nd d k f, (forall r, ext r (f r)) -> grows nd d (upd (n_db nd) d k f).
Proof.
  intros nd d k f H x. rewrite get_upd. destruct (Z.eqb_spec k x) as [-> | N]; [split; [discriminate|]; intros r' E; injection E as <-; apply H | apply grows_refl].
Qed.
Lemma grows_fold : forall (A : Type) nd (f : resp -> A -> resp) l, (forall d x, grows nd d (f d x)) -> forall d, grows nd d (fold_left f l d).
Proof. intros A nd f l H. induction l as [|x l IH]; intro d; cbn [fold_left]; [apply grows_refl|]. eapply grows_trans; [apply H | apply IH]. Qed.
Lemma fold_nodup : forall (A : Type) (f : resp -> A -> resp) l, (forall d x, NoDup (map fst d) -> NoDup (map fst (f d x))) -> forall d, NoDup (map fst d) -> NoDup (map fst (fold_left f l d)).
Proof. intros A f l H. induction l as [|x l IH]; intros d N; cbn [fold_left]; auto. Qed.

(** Circuits. *)
Definition cstep (nd : node) (i : info) (d : resp) (p : circ * (Z * Z)) : resp :=
  upd (n_db nd) d (fst (snd p)) (fun r =>
    mkRec (r_name r) (r_exec r) (r_state r) (Some (c_name (fst p))) (if is_stat i then r_next r else Some (fst (snd p)))
      (if is_stat i && c_lan (fst p) then Some 1 else r_hops r) (if is_stat i && c_lan (fst p) then Some (c_cost (fst p)) else r_cost r)
      (if is_stat i then Some (snd (snd p)) else r_type r) (r_links r) (r_delay r) (r_loop r)).
Lemma cstep_ext : forall nd i d p, grows nd d (cstep nd i d p).
Proof. intros. apply grows_upd. intro r. repeat split. Qed.
Definition pairs (l : list circ) : list (circ * (Z * Z)) := flat_map (fun c => map (fun p => (c, p)) (c_up c)) l.
Lemma circ_pairs : forall nd i c d, circ_node nd i c None d = fold_left (cstep nd i) (map (fun p => (c, p)) (c_up c)) d.
Proof. intros nd i c. unfold circ_node. induction (c_up c) as [|[n ty] l IH]; intro d; [reflexivity|]. cbn [fold_left map]. rewrite IH. reflexivity. Qed.
Lemma circs_pairs : forall nd i (p : circ -> bool) l d, fold_left (fun d c => if p c then circ_node nd i c None d else d) l d = fold_left (cstep nd i) (pairs (filter p l)) d.
Proof.
  intros nd i p l. induction l as [|c l IH]; intro d; [reflexivity|]. cbn [fold_left filter]. destruct (p c); [|apply IH]. unfold pairs. cbn [flat_map]. rewrite fold_left_app, <- circ_pairs. apply IH.
Qed.
Lemma circ_fold : forall nd i ps d k,
  (get (fold_left (cstep nd i) ps d) k <> None <-> get d k <> None \/ exists c ty, In (c, (k, ty)) ps) /\
  forall r, get (fold_left (cstep nd i) ps d) k = Some r ->
    r_state r = r_state (or_fresh nd k (get d k)) /\
    (get d k = Some r \/ exists c ty, In (c, (k, ty)) ps /\ r_circ r = Some (c_name c) /\
       (is_stat i = true -> r_type r = Some ty /\ (c_lan c = true -> r_hops r = Some 1 /\ r_cost r = Some (c_cost c))) /\ (is_stat i = false -> r_next r = Some k)).
Proof.
  intros nd i ps d k. induction ps as [|p ps IH] using rev_ind.
  - cbn [fold_left]. split; [split; [auto | intros [H | (c & ty & [])]; exact H]|]. intros r E. rewrite E. auto.
  - rewrite fold_left_app. cbn [fold_left]. destruct IH as [K R]. unfold cstep at 1. rewrite get_upd. destruct p as [c [n ty]]. cbn [fst snd] in *. split.
    + destruct (Z.eqb_spec n k) as [-> | N].
      * split; [intros _; right; exists c, ty; apply in_or_app; right; left; reflexivity | discriminate].
      * rewrite K. split; (intros [H | (c' & t' & H)]; [left; exact H|]); right; exists c', t'; [apply in_or_app; left; exact H|].
        apply in_app_or in H as [H | [H | []]]; [exact H | congruence].
    + intros r. unfold cstep at 1. rewrite get_upd. cbn [fst snd]. destruct (Z.eqb_spec n k) as [-> | N].
      * intro E. injection E as <-. cbn [r_state r_circ r_type r_hops r_cost r_next]. split.
        -- destruct (get (fold_left (cstep nd i) ps d) k) as [r0|] eqn:G; cbn [or_fresh]; [apply (R r0 eq_refl)|].
           destruct (get d k) as [r1|]; [|reflexivity]. destruct K as [_ K]. contradiction K; [left; discriminate | reflexivity].
        -- right. exists c, ty. split; [apply in_or_app; right; left; reflexivity|]. split; [reflexivity|]. destruct (is_stat i); cbn [andb]; (split; [|discriminate || reflexivity]); [intros _ | discriminate].
           split; [reflexivity|]. intros ->. split; reflexivity.
      * intro E. destruct (R r E) as [R1 [R2 | (c' & t' & H & R3)]]; split; auto. right. exists c', t'. split; [apply in_or_app; left; exact H | exact R3].
Qed.
(** The routing table. *)
Lemma reach_other : forall nd q i qu d t k, area_of (n_me nd) * 1024 + t <> k -> get (reach_one nd q i qu d t) k = get d k.
Proof.
  intros nd q i qu d t k N. unfold reach_one. destruct (n_oadj nd t) as [| |a].
  - destruct (_ || _); [|reflexivity]. rewrite get_upd. destruct (Z.eqb_spec (area_of (n_me nd) * 1024 + t) k); [contradiction | reflexivity].
  - reflexivity.
  - destruct (match qu with Some s => _ | None => _ end); [reflexivity|]. rewrite get_upd. destruct (Z.eqb_spec (area_of (n_me nd) * 1024 + t) k); [contradiction | reflexivity].
Qed.
Lemma range1_in : forall n t, In t (range1 n) <-> 1 <= t <= n.
Proof.
  intros n t. unfold range1. rewrite in_map_iff. split.
  - intros (x & <- & I). apply in_seq in I. lia.
  - intro H. exists (Z.to_nat t). split; [lia|]. apply in_seq. lia.
Qed.
Lemma range1_nodup : forall n, NoDup (range1 n).
Proof. intro n. unfold range1. apply Injective_map_NoDup; [intros x y; apply Nat2Z.inj | apply seq_NoDup]. Qed.
Lemma reach_fold : forall nd q i qu ts d k, NoDup ts ->
  (forall t, In t ts -> area_of (n_me nd) * 1024 + t = k -> exists d', get d' k = get d k /\ get (fold_left (reach_one nd q i qu) ts d) k = get (reach_one nd q i qu d' t) k) /\
  ((forall t, In t ts -> area_of (n_me nd) * 1024 + t <> k) -> get (fold_left (reach_one nd q i qu) ts d) k = get d k).
Proof.
  intros nd q i qu ts d k. revert d. induction ts as [|t ts IH]; intros d N; cbn [fold_left]; [split; [intros t [] | reflexivity]|].
  inversion N as [|? ? NI N2]; subst. destruct (IH (reach_one nd q i qu d t) N2) as [A B]. split.
  - intros x [<- | X] E.
    + exists d. split; [reflexivity|]. apply B. intros y Y E2. assert (y = t) by lia. subst y. contradiction.
    + destruct (A x X E) as (d' & E1 & E2). exists d'. split; [|exact E2]. rewrite E1. apply reach_other. intro E3. assert (x = t) by lia. subst x. contradiction.
  - intro H. rewrite B by (intros x X; apply H; right; exact X). apply reach_other. apply H. left. reflexivity.
Qed.
Lemma key_split : forall nd k t, 1 <= t < 1024 -> (area_of (n_me nd) * 1024 + t = k <-> area_of k = area_of (n_me nd) /\ tid_of k = t).
Proof.
  intros nd k t T. unfold area_of, tid_of. split.
  - intros <-. rewrite Z.mul_comm, Z.add_comm. split; [rewrite Z.mul_comm, Z.div_add, Z.div_small; lia | rewrite Z.mul_comm, Z.mod_add, Z.mod_small; lia].
  - intros [A B]. rewrite <- A, <- B. rewrite Z.mul_comm. symmetry. apply Z.div_mod. lia.
Qed.
Lemma reach_ext : forall nd q i qu d t, grows nd d (reach_one nd q i qu d t).
Proof.
  intros nd q i qu d t. unfold reach_one. destruct (n_oadj nd t) as [| |a]; [destruct (_ || _) | |destruct (match qu with Some s => _ | None => _ end)]; try apply grows_refl; apply grows_upd; intro r; repeat split.
Qed.

(** *** All of it *)
Definition cqual (qu : qual) : option (list Z) := match qu with QuCirc s => Some s | _ => None end.
Definition in_qual (qu : qual) (c : circ) : bool := match cqual qu with Some s => leqb (c_name c) s | None => true end.
Lemma leqb_spec : forall a b, leqb a b = true <-> a = b.
Proof. intros a b. unfold leqb. destruct (list_eq_dec Z.eq_dec a b); split; congruence. Qed.
Lemma in_qual_spec : forall qu c, qu <> QuPlural -> (in_qual qu c = true <-> asked qu (c_name c)).
Proof. intros [| |s] c N; cbn; [tauto | contradiction N; reflexivity | apply leqb_spec]. Qed.
Lemma pairs_in : forall nd qu k, qu <> QuPlural -> ((exists c ty, In (c, (k, ty)) (pairs (filter (in_qual qu) (n_circs nd)))) <-> neighbour nd qu k).
Proof.
  intros nd qu k N. unfold pairs, neighbour. split; intros (c & ty & H); exists c, ty.
  - apply in_flat_map in H as (c' & C & H). apply filter_In in C as [C1 C2]. apply in_map_iff in H as (p & E & H). injection E as -> ->. rewrite in_qual_spec in C2 by exact N. auto.
  - destruct H as (C & A & H). apply in_flat_map. exists c. split; [apply filter_In; split; [exact C | apply in_qual_spec; assumption]|]. apply in_map, H.
Qed.
Definition circs_done (nd : node) (q : query) (i : info) (qu : qual) : resp := fold_left (cstep nd i) (pairs (filter (in_qual qu) (n_circs nd))) (nsp_read nd q i []).
(** The answer before it is put in order. *)
Definition raw (nd : node) (q : query) (i : info) (qu : qual) : resp :=
  match qu with
  | QuPlural => nsp_read nd q i []
  | _ => match i with
         | ICount => nsp_read nd q i []
         | IChar => match q with QAdj | QLoop => nsp_read nd q i [] | _ => upd (n_db nd) (nsp_read nd q i []) (n_me nd) (fun r => r) end
         | _ => match q with
                | QLoop => nsp_read nd q i []
                | QAdj => circs_done nd q i qu
                | _ => reach nd q i (cqual qu) (circs_done nd q i qu)
                end
         end
  end.
Lemma raw_spec : forall nd q i qu, plural q -> route_read nd q i qu (nsp_read nd q i []) = Ok (raw nd q i qu).
Proof.
  intros nd q i qu P. unfold route_read, raw, circs_done. destruct qu; try reflexivity; destruct i; try reflexivity; destruct q; try contradiction; try reflexivity; cbn [cqual];
    rewrite <- circs_pairs; reflexivity.
Qed.
Theorem show_plural : forall nd q i qu, plural q -> show nd q i qu = Ok (Shown (sorted (n_me nd) q (executor nd i (raw nd q i qu)))).
Proof.
  intros nd q i qu P. unfold show. destruct q; try contradiction P; rewrite raw_spec by exact P; reflexivity.
Qed.
Lemma reach_nodup : forall nd q i qu d, NoDup (map fst d) -> NoDup (map fst (reach nd q i qu d)).
Proof.
  intros nd q i qu d N. unfold reach. destruct (n_kind nd); try exact N; apply fold_nodup; try exact N; intros x t X; unfold reach_one;
    (destruct (n_oadj nd t) as [| |a]; [destruct (_ || _) | |destruct (match qu with Some s => _ | None => _ end)]; try exact X; apply upd_nodup, X).
Qed.
Lemma reach_grows : forall nd q i qu d, grows nd d (reach nd q i qu d).
Proof. intros nd q i qu d. unfold reach. destruct (n_kind nd); try apply grows_refl; apply grows_fold; intros; apply reach_ext. Qed.
Lemma circs_nodup : forall nd i ps d, NoDup (map fst d) -> NoDup (map fst (fold_left (cstep nd i) ps d)).
Proof. intros nd i ps d N. apply fold_nodup; [|exact N]. intros x p X. apply upd_nodup, X. Qed.
Lemma raw_grows : forall nd q i qu, grows nd (nsp_read nd q i []) (raw nd q i qu).
Proof.
  intros nd q i qu. unfold raw, circs_done. destruct qu; try apply grows_refl; destruct i; try apply grows_refl; destruct q; try apply grows_refl;
    try (apply grows_upd; intro r; apply ext_refl); try (apply grows_fold; intros; apply cstep_ext); (eapply grows_trans; [|apply reach_grows]); apply grows_fold; intros; apply cstep_ext.
Qed.
Lemma raw_nodup : forall nd q i qu, sane nd -> plural q -> NoDup (map fst (raw nd q i qu)).
Proof.
  intros nd q i qu S P. destruct (nsp_stage nd q i S P) as (_ & _ & N & _). unfold raw, circs_done. destruct qu; try exact N; destruct i; try exact N; destruct q; try exact N;
    try (apply upd_nodup, N); try (apply circs_nodup, N); apply reach_nodup, circs_nodup, N.
Qed.
(** The table's part. *)
Lemma reach_get : forall nd q i qu d k, sane nd ->
  (in_table nd k -> exists d', get d' k = get d k /\ get (reach nd q i qu d) k = get (reach_one nd q i qu d' (tid_of k)) k) /\
  (~ in_table nd k -> get (reach nd q i qu d) k = get d k).
Proof.
  intros nd q i qu d k (S1 & _). destruct (reach_fold nd q i qu (range1 (n_maxnodes nd)) d k (range1_nodup _)) as [A B].
  assert (R : router nd -> reach nd q i qu d = fold_left (reach_one nd q i qu) (range1 (n_maxnodes nd)) d) by (unfold reach; intros [-> | ->]; reflexivity). split.
  - intros (RT & K1 & K2). rewrite (R RT). apply A; [apply range1_in; exact K2|]. apply key_split; [lia | auto].
  - intro NT. destruct (n_kind nd) eqn:KD; [unfold reach; rewrite KD; reflexivity | unfold reach; rewrite KD; reflexivity | |];
      (rewrite R by (unfold router; auto); apply B; intros t T E; apply range1_in in T; apply key_split in E as [E1 E2]; [|lia]; apply NT; split; [unfold router; auto | rewrite E2; auto]).
Qed.
Lemma reach_one_spec : forall nd q i qu d k, sane nd -> in_table nd k ->
  let o := get (reach_one nd q i (cqual qu) d (tid_of k)) k in
  match n_oadj nd (tid_of k) with
  | OSelf => o = get d k
  | OAdj a => if match cqual qu with Some s => negb (leqb (a_circ a) s) | None => false end then o = get d k
              else o = Some (set_route 4 (a_circ a) (is_stat i) (Some (n_hops nd (tid_of k), n_cost nd (tid_of k))) None (a_node a) (or_fresh nd k (get d k)))
  | ONone => if match q with QKnown => true | _ => false end || has d k then o = Some (set_state 5 (or_fresh nd k (get d k))) else o = get d k
  end.
Proof.
  intros nd q i qu d k (S1 & _) (_ & K1 & K2). assert (E : area_of (n_me nd) * 1024 + tid_of k = k) by (apply key_split; [lia | auto]). unfold reach_one. rewrite E.
  destruct (n_oadj nd (tid_of k)) as [| |a]; [destruct (_ || _) | |destruct (match cqual qu with Some s => _ | None => _ end)]; cbv zeta; rewrite ?get_upd, ?Z.eqb_refl; reflexivity.
Qed.
Lemma table_dec : forall nd k, in_table nd k \/ ~ in_table nd k.
Proof.
  intros nd k. unfold in_table. assert (RD : router nd \/ ~ router nd) by (unfold router; destruct (n_kind nd); auto; right; intros [E | E]; discriminate E).
  destruct RD; [|right; tauto]. destruct (Z.eq_dec (area_of k) (area_of (n_me nd))); [|right; tauto].
  destruct (Z_le_dec 1 (tid_of k)); [|right; lia]. destruct (Z_le_dec (tid_of k) (n_maxnodes nd)); [left; auto | right; lia].
Qed.
Lemma not_asked : forall qu c, qu <> QuPlural -> (match cqual qu with Some s => negb (leqb c s) | None => false end = false <-> asked qu c).
Proof. intros [| |s] c N; cbn; [tauto | contradiction N; reflexivity|]. rewrite negb_false_iff. apply leqb_spec. Qed.
Lemma reach_listed : forall nd q i qu d k, sane nd -> qu <> QuPlural ->
  (get (reach nd q i (cqual qu) d) k <> None <-> get d k <> None \/ reachable nd qu k \/ q = QKnown /\ out_of_reach nd k).
Proof.
  intros nd q i qu d k S NP. destruct (reach_get nd q i (cqual qu) d k S) as [IT NT]. unfold reachable, out_of_reach. destruct (table_dec nd k) as [D | D].
  - destruct (IT D) as (d' & E1 & E2). rewrite E2. pose proof (reach_one_spec nd q i qu d' k S D) as X. cbv zeta in X. rewrite <- E1. destruct (n_oadj nd (tid_of k)) as [| |a].
    + rewrite has_get in X. assert (B : match q with QKnown => true | _ => false end = true <-> q = QKnown) by (destruct q; split; congruence).
      destruct (match q with QKnown => true | _ => false end); cbn [orb] in X.
      * rewrite X. split; [intros _; right; right; split; [apply B; reflexivity | auto] | discriminate].
      * destruct (get d' k) eqn:G; rewrite X; [split; [intros _; left; discriminate | discriminate]|].
        split; [congruence|]. intros [H | [(_ & a & E & _) | (E & _)]]; [exact H | discriminate E | apply B in E; discriminate E].
    + rewrite X. split; [auto|]. intros [H | [(_ & a & E & _) | (_ & _ & E)]]; [exact H | discriminate E | discriminate E].
    + pose proof (not_asked qu (a_circ a) NP) as NA. destruct (match cqual qu with Some s => _ | None => _ end); rewrite X.
      * split; [auto|]. intros [H | [(_ & a' & E & A) | (_ & _ & E)]]; [exact H | injection E as <-; apply NA in A; discriminate A | discriminate E].
      * split; [|discriminate]. intros _. right. left. split; [exact D|]. exists a. split; [reflexivity | apply NA; reflexivity].
  - rewrite (NT D). tauto.
Qed.
Lemma raw_listed : forall nd q i qu k, sane nd -> plural q -> (get (raw nd q i qu) k <> None <-> by_nsp nd q i k \/ by_routing nd q i qu k).
Proof.
  intros nd q i qu k S P. destruct (nsp_stage nd q i S P) as (_ & _ & _ & K).
  assert (C : qu <> QuPlural -> (get (circs_done nd q i qu) k <> None <-> by_nsp nd q i k \/ neighbour nd qu k)).
  { intro NP. unfold circs_done. destruct (circ_fold nd i (pairs (filter (in_qual qu) (n_circs nd))) (nsp_read nd q i []) k) as [H _]. rewrite H, K, pairs_in by exact NP. tauto. }
  assert (PL : qu = QuPlural \/ qu <> QuPlural) by (destruct qu; auto; right; discriminate). destruct PL as [-> | NP].
  - cbn [raw]. rewrite K. assert (N : ~ by_routing nd q i QuPlural k); [|tauto].
    assert (NN : ~ neighbour nd QuPlural k) by (intros (c & ty & _ & [] & _)). assert (NR : ~ reachable nd QuPlural k) by (intros (_ & a & _ & [])).
    unfold by_routing. destruct i; try tauto; destruct q; tauto.
  - assert (R := reach_listed nd q i qu (circs_done nd q i qu) k S NP). rewrite (C NP) in R.
    assert (U : get (upd (n_db nd) (nsp_read nd q i []) (n_me nd) (fun r => r)) k <> None <-> by_nsp nd q i k \/ k = n_me nd).
    { rewrite get_upd. destruct (Z.eqb_spec (n_me nd) k) as [-> | N]; [split; [auto | discriminate]|]. rewrite K. split; [auto|]. intros [H | H]; [exact H | congruence]. }
    unfold raw. destruct qu as [| |cq]; [|contradiction NP; reflexivity|]; (destruct i; [| | |rewrite K; cbn [by_routing]; tauto]); destruct q; try contradiction P; cbn [by_routing];
      rewrite ?R, ?(C NP), ?U, ?K; clear; first [tauto | intuition congruence].
Qed.
Definition exec_mark (i : info) (r : rec) : rec :=
  mkRec (r_name r) true (if sumstat i then Some 0 else r_state r) (r_circ r) (r_next r) (r_hops r) (r_cost r) (r_type r) (r_links r) (r_delay r) (r_loop r).
Lemma exec_get : forall nd i d k, get (executor nd i d) k = if k =? n_me nd then option_map (exec_mark i) (get d k) else get d k.
Proof.
  intros nd i d k. unfold executor. rewrite has_get. destruct (Z.eqb_spec k (n_me nd)) as [-> | N].
  - destruct (get d (n_me nd)) as [r|] eqn:G; cbn [option_map]; [|exact G]. rewrite get_upd, Z.eqb_refl, G. reflexivity.
  - destruct (get d (n_me nd)); [|reflexivity]. rewrite get_upd. destruct (Z.eqb_spec (n_me nd) k); [congruence | reflexivity].
Qed.
Lemma exec_nodup : forall nd i d, NoDup (map fst d) -> NoDup (map fst (executor nd i d)).
Proof. intros nd i d N. unfold executor. destruct (has d (n_me nd)); [apply upd_nodup, N | exact N]. Qed.
Lemma matches_spec : forall q k, matches q k = true <-> selected q k.
Proof. intros q k. destruct q; cbn; try tauto; apply Z.eqb_eq. Qed.
Lemma shown_in : forall nd q i qu l k r, sane nd -> plural q -> show nd q i qu = Ok (Shown l) ->
  (In (k, r) l <-> selected q k /\ get (executor nd i (raw nd q i qu)) k = Some r).
Proof.
  intros nd q i qu l k r S P E. rewrite show_plural in E by exact P. injection E as <-. rewrite sorted_in. cbn [fst]. rewrite matches_spec, get_in by (apply exec_nodup, raw_nodup; assumption). tauto.
Qed.
(** *** C73 *)
(** Asked for several nodes, the answer lists exactly those that NSP or routing
    have something to say about, of those selected. *)
Theorem show_listed : forall nd q i qu l, sane nd -> plural q -> show nd q i qu = Ok (Shown l) ->
  forall k, In k (map fst l) <-> selected q k /\ (by_nsp nd q i k \/ by_routing nd q i qu k).
Proof.
  intros nd q i qu l S P E k. rewrite <- (raw_listed nd q i qu k S P). split.
  - intro I. apply in_map_iff in I as ([k' r] & E' & I). cbn [fst] in E'. subst k'. apply (shown_in nd q i qu l k r S P E) in I as [I1 I2]. split; [exact I1|].
    rewrite exec_get in I2. intro N. rewrite N in I2. destruct (k =? n_me nd); discriminate I2.
  - intros [SEL G]. assert (X : exists r, get (executor nd i (raw nd q i qu)) k = Some r).
    { rewrite exec_get. destruct (get (raw nd q i qu) k) as [r|]; [|contradiction G; reflexivity]. destruct (k =? n_me nd); eexists; reflexivity. }
    destruct X as [r X]. apply (in_map fst _ (k, r)). apply (shown_in nd q i qu l k r S P E). auto.
Qed.
Print Assumptions show_listed.
(** In order: the executor first, then by address, each once. *)
Theorem show_order : forall nd q i qu l, sane nd -> plural q -> show nd q i qu = Ok (Shown l) ->
  exists first rest, l = first ++ rest /\ (first = [] \/ exists r, first = [(n_me nd, r)]) /\ StronglySorted under rest /\ ~ In (n_me nd) (map fst rest).
Proof.
  intros nd q i qu l S P E. rewrite show_plural in E by exact P. injection E as <-. apply sorted_shape, exec_nodup, raw_nodup; assumption.
Qed.
Print Assumptions show_order.
(** The executor, and no other, is marked as such; it is on. *)
Theorem show_executor : forall nd q i qu l k r, sane nd -> plural q -> show nd q i qu = Ok (Shown l) -> In (k, r) l ->
  (r_exec r = true <-> k = n_me nd) /\ (k = n_me nd -> brief i -> r_state r = Some 0).
Proof.
  intros nd q i qu l k r S P E I. apply (shown_in nd q i qu l k r S P E) in I as [_ I]. rewrite exec_get in I. destruct (Z.eqb_spec k (n_me nd)) as [-> | N].
  - destruct (get (raw nd q i qu) (n_me nd)) as [r0|]; [|discriminate I]. injection I as <-. split; [split; reflexivity|]. intros _ B. apply brief_sumstat in B. cbn. rewrite B. reflexivity.
  - split; [|contradiction]. split; [|contradiction]. intro X. exfalso. destruct (raw_grows nd q i qu k) as [_ G]. specialize (G r I). destruct G as (_ & _ & _ & _ & G).
    destruct (nsp_stage nd q i S P) as (B & _). destruct (get (nsp_read nd q i []) k) as [r0|] eqn:D; cbn [or_fresh] in G; [destruct (B k r0 D) as (B1 & _)|]; cbn in G; congruence.
Qed.
Print Assumptions show_executor.
(** What NSP says: the name, how many links there are and the delay. *)
Theorem show_nsp : forall nd q i qu l k r, sane nd -> plural q -> brief i -> show nd q i qu = Ok (Shown l) -> In (k, r) l -> k <> 0 ->
  (forall e, In e (n_db nd) -> e_num e = k -> r_name r = e_name e) /\
  (by_nsp nd q i k -> r_links r = (if links nd k =? 0 then None else Some (links nd k)) /\
     forall e, In e (n_db nd) -> e_num e = k -> r_delay r = if e_delay e =? 0 then None else Some (shown_delay (e_delay e))) /\
  (~ by_nsp nd q i k -> r_links r = None /\ r_delay r = None).
Proof.
  intros nd q i qu l k r S P B E I K. apply (shown_in nd q i qu l k r S P E) in I as [_ I]. rewrite exec_get in I.
  destruct (nsp_stage nd q i S P) as (_ & G & _ & KL). destruct (raw_grows nd q i qu k) as [_ X].
  assert (Y : ext (or_fresh nd k (get (nsp_read nd q i []) k)) r \/ exists r0, ext (or_fresh nd k (get (nsp_read nd q i []) k)) r0 /\ r = exec_mark i r0).
  { destruct (k =? n_me nd); [|left; apply X, I]. destruct (get (raw nd q i qu) k) as [r0|]; [|discriminate I]. injection I as <-. right. exists r0. split; [apply X|]; reflexivity. }
  assert (Z : r_name r = r_name (or_fresh nd k (get (nsp_read nd q i []) k)) /\ r_links r = r_links (or_fresh nd k (get (nsp_read nd q i []) k)) /\ r_delay r = r_delay (or_fresh nd k (get (nsp_read nd q i []) k))).
  { destruct Y as [(Y1 & Y2 & Y3 & _) | (r0 & (Y1 & Y2 & Y3 & _) & ->)]; cbn [exec_mark r_name r_links r_delay]; auto. }
  clear X Y. destruct Z as (Z1 & Z2 & Z3). apply brief_sumstat in B. specialize (KL k). destruct (get (nsp_read nd q i []) k) as [r0|] eqn:D; cbn [or_fresh] in *.
  - destruct (G k r0 K D) as (e & Ie & Le & Ee & _ & G1 & G2 & G3 & _). assert (U : forall x, In x (n_db nd) -> e_num x = k -> x = e).
    { intros x Ix Ex. apply S; try assumption; [|congruence]. apply S; [exact Ix | congruence]. }
    unfold shown_links, shown_d in *. rewrite B in *. split; [intros x Ix Ex; rewrite (U x Ix Ex); congruence|]. split.
    + intros _. split; [congruence|]. intros x Ix Ex. rewrite (U x Ix Ex). congruence.
    + intro N. contradiction N. apply KL. discriminate.
  - split; [|split; [intro H; apply KL in H; contradiction H; reflexivity | intros _; split; [rewrite Z2 | rewrite Z3]; reflexivity]].
    intros x Ix Ex. rewrite Z1. unfold fresh, by_num. cbn [r_name]. destruct (find _ (n_db nd)) as [y|] eqn:F.
    + apply find_some in F as [F1 F2]. destruct (e_loop y) eqn:L; [discriminate F2|]. apply Z.eqb_eq in F2. f_equal. apply S; try assumption; [|congruence]. apply S; [exact Ix | congruence].
    + apply (find_none _ _ F) in Ix as W. assert (L : e_loop x = None) by (apply S; [exact Ix | congruence]). rewrite L, Ex, Z.eqb_refl in W. discriminate W.
Qed.
Print Assumptions show_nsp.
(** What the routing table says about the nodes of the area: reachable, with
    circuit and distance or next node, or unreachable. *)
Theorem show_route : forall nd q i l k r, sane nd -> plural q -> q <> QAdj -> q <> QLoop -> brief i -> show nd q i QuAll = Ok (Shown l) -> In (k, r) l -> k <> n_me nd -> in_table nd k ->
  (forall a, n_oadj nd (tid_of k) = OAdj a -> r_state r = Some 4 /\ r_circ r = Some (a_circ a) /\
     (i = IStat -> r_hops r = Some (n_hops nd (tid_of k)) /\ r_cost r = Some (n_cost nd (tid_of k))) /\ (i = ISum -> r_next r = Some (a_node a))) /\
  (n_oadj nd (tid_of k) = ONone -> r_state r = Some 5) /\ n_oadj nd (tid_of k) <> OSelf.
Proof.
  intros nd q i l k r S P NA NL B E I K T. apply (shown_in nd q i QuAll l k r S P E) in I as [_ I]. rewrite exec_get in I. destruct (Z.eqb_spec k (n_me nd)); [contradiction|].
  assert (R : raw nd q i QuAll = reach nd q i None (circs_done nd q i QuAll)) by (unfold raw; destruct B as [-> | ->]; destruct q; try contradiction; reflexivity). rewrite R in I.
  destruct (reach_get nd q i None (circs_done nd q i QuAll) k S) as [IT _]. destruct (IT T) as (d' & E1 & E2). rewrite E2 in I.
  pose proof (reach_one_spec nd q i QuAll d' k S T) as X. cbv zeta in X. cbn [cqual] in X. split; [|split].
  - intros a A. rewrite A in X. rewrite X in I. injection I as <-. cbn [set_route r_state r_circ r_hops r_cost r_next]. split; [reflexivity|]. split; [reflexivity|]. split; intros ->; [split; reflexivity | reflexivity].
  - intro A. rewrite A in X. rewrite has_get in X. destruct (get d' k) as [r0|] eqn:G.
    + rewrite orb_true_r in X. rewrite X in I. injection I as <-. reflexivity.
    + destruct (match q with QKnown => true | _ => false end); cbn [orb] in X; rewrite X in I; [injection I as <-; reflexivity | congruence].
  - intro A. destruct S as (S1 & S2 & S3 & _). destruct T as (_ & T1 & T2). apply S3 in A; [|exact T2]. apply n. unfold area_of, tid_of in *.
    rewrite (Z.div_mod k 1024), (Z.div_mod (n_me nd) 1024) by lia. congruence.
Qed.
Print Assumptions show_route.
(** What the circuits say about neighbours that are not in the table: the
    circuit, and the type (status) or that they are the next node. *)
Theorem show_neighbours : forall nd q i qu l k r, sane nd -> plural q -> q <> QLoop -> qu <> QuPlural -> brief i -> show nd q i qu = Ok (Shown l) -> In (k, r) l -> k <> n_me nd ->
  q = QAdj \/ ~ in_table nd k ->
  r_state r = None /\
  (neighbour nd qu k -> exists c ty, In c (n_circs nd) /\ asked qu (c_name c) /\ In (k, ty) (c_up c) /\ r_circ r = Some (c_name c) /\
     (i = IStat -> r_type r = Some ty /\ (c_lan c = true -> r_hops r = Some 1 /\ r_cost r = Some (c_cost c))) /\ (i = ISum -> r_next r = Some k)) /\
  (~ neighbour nd qu k -> r_circ r = None /\ r_next r = None /\ r_type r = None /\ r_hops r = None /\ r_cost r = None).
Proof.
  intros nd q i qu l k r S P NL NP B E I K T. apply (shown_in nd q i qu l k r S P E) in I as [_ I]. rewrite exec_get in I. destruct (Z.eqb_spec k (n_me nd)); [contradiction|].
  assert (R : get (raw nd q i qu) k = get (circs_done nd q i qu) k).
  { assert (R1 : raw nd q i qu = match q with QAdj => circs_done nd q i qu | _ => reach nd q i (cqual qu) (circs_done nd q i qu) end)
      by (unfold raw; destruct B as [-> | ->]; destruct qu; try (contradiction NP; reflexivity); destruct q; try contradiction; try (contradiction NL; reflexivity); reflexivity).
    rewrite R1. destruct T as [-> | T]; [reflexivity|]. destruct (reach_get nd q i (cqual qu) (circs_done nd q i qu) k S) as [_ N]. specialize (N T). destruct q; solve [reflexivity | exact N]. }
  rewrite R in I. unfold circs_done in I. destruct (circ_fold nd i (pairs (filter (in_qual qu) (n_circs nd))) (nsp_read nd q i []) k) as [_ F]. destruct (F r I) as [F1 F2].
  destruct (nsp_stage nd q i S P) as (BL & _). assert (ST : is_stat i = true <-> i = IStat) by (destruct i; cbn [is_stat]; split; congruence). assert (SU : i = ISum -> is_stat i = false) by (intros ->; reflexivity).
  split; [|split].
  - rewrite F1. destruct (get (nsp_read nd q i []) k) as [r0|] eqn:D; cbn [or_fresh]; [apply (BL k r0 D) | reflexivity].
  - intros NB. assert (W : exists c ty, In (c, (k, ty)) (pairs (filter (in_qual qu) (n_circs nd))) /\ r_circ r = Some (c_name c) /\
       (is_stat i = true -> r_type r = Some ty /\ (c_lan c = true -> r_hops r = Some 1 /\ r_cost r = Some (c_cost c))) /\ (is_stat i = false -> r_next r = Some k)).
    { destruct F2 as [F2 | F2]; [|exact F2]. exfalso. apply pairs_in in NB; [|exact NP]. destruct NB as (c & ty & NB).
      assert (L : forall ps d, (exists c ty, In (c, (k, ty)) ps) -> forall r, get (fold_left (cstep nd i) ps d) k = Some r -> r_circ r <> None).
      { clear. intros ps d. induction ps as [|p ps IH] using rev_ind; intros (c & ty & H) r G; [contradiction H|]. rewrite fold_left_app in G. cbn [fold_left] in G. unfold cstep at 1 in G. rewrite get_upd in G.
        destruct (Z.eqb_spec (fst (snd p)) k) as [E | N]; [injection G as <-; discriminate|]. apply (IH) with (r := r); [|exact G]. apply in_app_or in H as [H | [-> | []]]; [exists c, ty; exact H | contradiction N; reflexivity]. }
      apply (L (pairs (filter (in_qual qu) (n_circs nd))) (nsp_read nd q i [])) with (r := r); [exists c, ty; exact NB | exact I|]. apply (BL k r F2). }
    destruct W as (c & ty & W1 & W2 & W3 & W4). exists c, ty. unfold pairs in W1. apply in_flat_map in W1 as (c' & C & H). apply filter_In in C as [C1 C2]. apply in_map_iff in H as (p & E' & H). injection E' as -> ->.
    rewrite in_qual_spec in C2 by exact NP. rewrite ST in W3. split; [exact C1|split; [exact C2|split; [exact H|split; [exact W2|split; [exact W3 | auto]]]]].
  - intro NN. destruct F2 as [F2 | (c & ty & F2 & _)]; [destruct (BL k r F2) as (_ & _ & B1 & B2 & B3 & B4 & B5); auto|]. contradiction NN. apply pairs_in; [exact NP|]. exists c, ty. exact F2.
Qed.
Print Assumptions show_neighbours.

(** *** One node *)
(** Asked for one node of the area, a router says whether it is reachable, and
    how, unless the number is above the largest one. *)
Theorem show_one : forall nd i k, sane nd -> router nd -> brief i -> k <> 0 -> k <> n_me nd -> in_table nd k ->
  exists r, show nd (QOne k) i QuAll = Ok (Shown [(k, r)]) /\ r_exec r = false /\
    r_links r = (if links nd k =? 0 then None else Some (links nd k)) /\
    (forall e, In e (n_db nd) -> e_num e = k -> r_name r = e_name e) /\
    (forall a, n_oadj nd (tid_of k) = OAdj a -> r_state r = Some 4 /\ r_circ r = Some (a_circ a) /\
       (i = IStat -> r_hops r = Some (n_hops nd (tid_of k)) /\ r_cost r = Some (n_cost nd (tid_of k)) /\ (k = a_node a -> r_type r = Some (a_type a))) /\
       (i = ISum -> r_next r = Some (a_node a))) /\
    (n_oadj nd (tid_of k) = ONone -> r_state r = Some 5).
Proof.
  intros nd i k S RT B K0 KM (_ & T1 & T2).
  set (e0 := match by_num (n_db nd) k with Some e => e | None => mkEnt k [] None 0 false end).
  assert (EN : e_num e0 = k /\ e_loop e0 = None).
  { unfold e0, by_num. destruct (find _ (n_db nd)) as [y|] eqn:F; [|split; reflexivity]. apply find_some in F as [_ F]. destruct (e_loop y); [discriminate F|]. split; [apply Z.eqb_eq, F | reflexivity]. }
  destruct EN as [EN EL].
  assert (NM : forall e, In e (n_db nd) -> e_num e = k -> e_name e0 = e_name e).
  { intros x Ix Ex. unfold e0, by_num. assert (L : e_loop x = None) by (apply S; [exact Ix | congruence]). destruct (find _ (n_db nd)) as [y|] eqn:F.
    - apply find_some in F as [F1 F2]. destruct (e_loop y) eqn:Ly; [discriminate F2|]. apply Z.eqb_eq in F2. f_equal. apply S; try assumption. congruence.
    - apply (find_none _ _ F) in Ix. rewrite L, Ex, Z.eqb_refl in Ix. discriminate Ix. }
  assert (NS : n_oadj nd (tid_of k) <> OSelf).
  { intro A. destruct S as (S1 & S2 & S3 & _). apply S3 in A; [|exact T2]. apply KM. unfold area_of, tid_of in *. rewrite (Z.div_mod k 1024), (Z.div_mod (n_me nd) 1024) by lia. congruence. }
  assert (SS : sumstat i = true) by (apply brief_sumstat, B).
  assert (RR : forall d, route_read nd (QOne k) i QuAll d = bind (route_node nd i k d) (fun d1 => Ok d1)).
  { intro d. unfold route_read. destruct B as [-> | ->]; destruct RT as [-> | ->]; reflexivity. }
  assert (RN : forall d, route_node nd i k d = Ok (match n_oadj nd (tid_of k) with
      | OSelf => d | ONone => upd (n_db nd) d k (set_state 5)
      | OAdj a => upd (n_db nd) d k (set_route 4 (a_circ a) (is_stat i) (Some (n_hops nd (tid_of k), n_cost nd (tid_of k))) (if k =? a_node a then Some (a_type a) else None) (a_node a)) end)).
  { intro d. unfold route_node. rewrite T1, Z.eqb_refl. unfold at_. replace (tid_of k <=? n_maxnodes nd) with true by (symmetry; apply Z.leb_le; lia).
    replace (tid_of k =? 0) with false by (symmetry; apply Z.eqb_neq; lia). destruct RT as [-> | ->]; reflexivity. }
  unfold show. replace (k =? 0) with false by (symmetry; apply Z.eqb_neq, K0). rewrite RR, RN. cbn [nsp_read bind]. fold e0. unfold nsp_node. rewrite EN, EL. cbn [upd].
  set (r0 := fresh (n_db nd) k). unfold executor, sorted.
  destruct (n_oadj nd (tid_of k)) as [| |a] eqn:A; [| contradiction NS; reflexivity |]; cbn [upd]; rewrite Z.eqb_refl; cbn [has]; replace (k =? n_me nd) with false by (symmetry; apply Z.eqb_neq, KM);
    cbn [orb filter matches fst sort insert app negb]; replace (k =? n_me nd) with false by (symmetry; apply Z.eqb_neq, KM); cbn [negb app]; eexists; (split; [reflexivity|]);
    unfold set_state, set_route; cbn [r_exec r_links r_name r_state r_circ r_hops r_cost r_type r_next]; rewrite SS.
  - split; [reflexivity|]. split; [destruct (links nd k =? 0); reflexivity|]. split; [exact NM|]. split; [discriminate | reflexivity].
  - split; [reflexivity|]. split; [destruct (links nd k =? 0); reflexivity|]. split; [exact NM|]. split; [|discriminate]. intros a' E. injection E as <-.
    split; [reflexivity|]. split; [reflexivity|]. split; intros ->; cbn [is_stat]; [|reflexivity]. split; [reflexivity|]. split; [reflexivity|]. intros ->. rewrite Z.eqb_refl. reflexivity.
Qed.
Print Assumptions show_one.
(** Asked for one node of another area, a level 2 router tells the way to the
    area, a level 1 router the way to the nearest level 2 router, both without
    distances (which they do not know). *)
Theorem show_abroad : forall nd i k, sane nd -> router nd -> brief i -> k <> 0 -> area_of k <> area_of (n_me nd) -> (n_kind nd = KL2 -> area_of k <= n_maxarea nd) ->
  let w := if match n_kind nd with KL2 => true | _ => false end then n_aoadj nd (area_of k) else n_oadj nd 0 in
  exists r, show nd (QOne k) i QuAll = Ok (Shown [(k, r)]) /\ r_exec r = false /\ r_hops r = None /\ r_cost r = None /\
    (forall e, In e (n_db nd) -> e_num e = k -> r_name r = e_name e) /\
    (forall a, w = OAdj a -> r_state r = Some 4 /\ r_circ r = Some (a_circ a) /\ (i = ISum -> r_next r = Some (a_node a)) /\ (i = IStat -> k = a_node a -> r_type r = Some (a_type a))) /\
    (w = ONone -> r_state r = Some 5).
Proof.
  intros nd i k S RT B K0 AR MX w.
  assert (KM : k <> n_me nd) by congruence.
  set (e0 := match by_num (n_db nd) k with Some e => e | None => mkEnt k [] None 0 false end).
  assert (EN : e_num e0 = k /\ e_loop e0 = None).
  { unfold e0, by_num. destruct (find _ (n_db nd)) as [y|] eqn:F; [|split; reflexivity]. apply find_some in F as [_ F]. destruct (e_loop y); [discriminate F|]. split; [apply Z.eqb_eq, F | reflexivity]. }
  destruct EN as [EN EL].
  assert (NM : forall e, In e (n_db nd) -> e_num e = k -> e_name e0 = e_name e).
  { intros x Ix Ex. unfold e0, by_num. assert (L : e_loop x = None) by (apply S; [exact Ix | congruence]). destruct (find _ (n_db nd)) as [y|] eqn:F.
    - apply find_some in F as [F1 F2]. destruct (e_loop y) eqn:Ly; [discriminate F2|]. apply Z.eqb_eq in F2. f_equal. apply S; try assumption. congruence.
    - apply (find_none _ _ F) in Ix. rewrite L, Ex, Z.eqb_refl in Ix. discriminate Ix. }
  assert (RR : forall d, route_read nd (QOne k) i QuAll d = bind (route_node nd i k d) (fun d1 => Ok d1)).
  { intro d. unfold route_read. destruct B as [-> | ->]; destruct RT as [-> | ->]; reflexivity. }
  assert (RN : forall d, route_node nd i k d = Ok (match w with
      | OSelf => d | ONone => upd (n_db nd) d k (set_state 5)
      | OAdj a => upd (n_db nd) d k (set_route 4 (a_circ a) (is_stat i) None (if k =? a_node a then Some (a_type a) else None) (a_node a)) end)).
  { intro d. unfold route_node, w. apply Z.eqb_neq in AR. rewrite AR. destruct RT as [RT | RT]; rewrite RT in *; cbn [bind andb]; [reflexivity|].
    unfold at_. replace (area_of k <=? n_maxarea nd) with true by (symmetry; apply Z.leb_le, MX; reflexivity). reflexivity. }
  unfold show. replace (k =? 0) with false by (symmetry; apply Z.eqb_neq, K0). rewrite RR, RN. cbn [nsp_read bind]. fold e0. unfold nsp_node. rewrite EN, EL. cbn [upd].
  unfold executor, sorted.
  destruct w as [| |a] eqn:A; cbn [upd]; try rewrite Z.eqb_refl; cbn [has]; replace (k =? n_me nd) with false by (symmetry; apply Z.eqb_neq, KM);
    cbn [orb filter matches fst sort insert app negb]; replace (k =? n_me nd) with false by (symmetry; apply Z.eqb_neq, KM); cbn [negb app]; eexists; (split; [reflexivity|]);
    unfold set_state, set_route; cbn [r_exec r_links r_name r_state r_circ r_hops r_cost r_type r_next].
  - split; [reflexivity|]. split; [reflexivity|]. split; [reflexivity|]. split; [exact NM|]. split; [discriminate | reflexivity].
  - split; [reflexivity|]. split; [reflexivity|]. split; [reflexivity|]. split; [exact NM|]. split; discriminate.
  - split; [reflexivity|]. split; [destruct (is_stat i); reflexivity|]. split; [destruct (is_stat i); reflexivity|]. split; [exact NM|]. split; [|discriminate]. intros a' E. injection E as <-.
    split; [reflexivity|]. split; [reflexivity|]. split; [intros ->; reflexivity|]. intros -> ->. rewrite Z.eqb_refl. reflexivity.
Qed.
Print Assumptions show_abroad.
(** The executor can be asked for as address 0; a name stands for its
    node's address; an unknown name is refused. *)
Theorem show_names : forall nd i qu, n_me nd <> 0 ->
  show nd (QOne 0) i qu = show nd (QOne (n_me nd)) i qu /\
  (forall e, In e (n_db nd) -> (forall e', In e' (n_db nd) -> e_name e' = e_name e -> e' = e) -> e_num e <> 0 -> show nd (QName (e_name e)) i qu = show nd (QOne (e_num e)) i qu) /\
  (forall s, (forall e, In e (n_db nd) -> e_name e <> s) -> show nd (QName s) i qu = Ok Unknown).
Proof.
  intros nd i qu M. unfold show. split; [|split].
  - cbn [Z.eqb]. destruct (Z.eqb_spec (n_me nd) 0); [contradiction | reflexivity].
  - intros e I U N. destruct (Z.eqb_spec (e_num e) 0); [contradiction|]. unfold by_name. destruct (find _ (n_db nd)) as [y|] eqn:F.
    + apply find_some in F as [F1 F2]. apply leqb_spec in F2. rewrite (U y F1 F2). reflexivity.
    + apply (find_none _ _ F) in I. assert (T : leqb (e_name e) (e_name e) = true) by (apply leqb_spec; reflexivity). congruence.
  - intros s U. unfold by_name. destruct (find _ (n_db nd)) as [y|] eqn:F; [|reflexivity]. apply find_some in F as [F1 F2]. apply leqb_spec in F2. contradiction (U y F1 F2).
Qed.
Print Assumptions show_names.
(** *** Areas *)
(** Below the largest area the reachable ones are listed, in order, with the
    way to them; one area is described whether reachable or not. *)
Theorem show_areas_all : forall nd i, brief i -> (forall a r, In (a, r) (show_areas nd i None) <-> 1 <= a < n_maxarea nd /\ n_aoadj nd a <> ONone /\ r = area_rec nd i a) /\
  StronglySorted (fun x y => fst x < fst y) (show_areas nd i None).
Proof.
  intros nd i B. apply brief_sumstat in B. unfold show_areas. rewrite B. cbn [negb]. split.
  - intros a r. rewrite in_flat_map. split.
    + intros (x & X & H). apply range1_in in X. destruct (n_aoadj nd x) eqn:A; [contradiction H | |]; destruct H as [H | []]; injection H as <- <-; (split; [lia | split; [congruence | reflexivity]]).
    + intros (X & N & ->). exists a. split; [apply range1_in; lia|]. destruct (n_aoadj nd a); [contradiction N; reflexivity | left; reflexivity | left; reflexivity].
  - unfold range1. generalize 1%nat. induction (Z.to_nat (n_maxarea nd - 1)) as [|n IH]; intro s; [constructor|]. cbn [seq map flat_map].
    assert (F : forall x, In x (flat_map (fun a => match n_aoadj nd a with ONone => [] | _ => [(a, area_rec nd i a)] end) (map (fun x => Z.of_nat x) (seq (S s) n))) -> Z.of_nat s < fst x).
    { intros x X. apply in_flat_map in X as (y & Y & X). apply in_map_iff in Y as (z & <- & Y). apply in_seq in Y. destruct (n_aoadj nd (Z.of_nat z)); [contradiction X | |]; destruct X as [<- | []]; cbn [fst]; lia. }
    specialize (IH (S s)). destruct (n_aoadj nd (Z.of_nat s)); cbn [app]; [exact IH | |]; (constructor; [exact IH|]; apply Forall_forall; exact F).
Qed.
Print Assumptions show_areas_all.
Theorem show_area_one : forall nd i a, brief i ->
  (1 <= a <= n_maxarea nd -> exists r, show_areas nd i (Some a) = [(a, r)] /\
     (n_aoadj nd a = ONone -> r = mkA 5 None None None) /\
     (forall x, n_aoadj nd a = OAdj x -> ar_state r = 4 /\ ar_circ r = Some (a_circ x) /\ ar_next r = Some (a_node x) /\ (i = IStat -> ar_dist r = Some (n_ahops nd a, n_acost nd a))) /\
     (n_aoadj nd a = OSelf -> ar_state r = 4 /\ ar_next r = Some (n_me nd) /\ (i = IStat -> ar_dist r = Some (n_ahops nd a, n_acost nd a)))) /\
  (~ 1 <= a <= n_maxarea nd -> show_areas nd i (Some a) = []).
Proof.
  intros nd i a B. apply brief_sumstat in B. unfold show_areas. rewrite B. cbn [negb]. split; intro R.
  - replace ((0 <? a) && (a <=? n_maxarea nd)) with true by (symmetry; apply andb_true_intro; split; [apply Z.ltb_lt | apply Z.leb_le]; lia).
    eexists. split; [reflexivity|]. unfold area_rec. split; [intros ->; reflexivity|]. split; [intros x -> | intros ->]; cbn; repeat split; intros ->; reflexivity.
  - destruct (Z.ltb_spec 0 a), (Z.leb_spec a (n_maxarea nd)); try reflexivity. lia.
Qed.
Print Assumptions show_area_one.
(** *** What the code does otherwise *)
(** FALSE of the code: that all reachable areas are listed.  The largest one
    never is. *)
Theorem show_maxarea_refuted : forall nd i r, ~ In (n_maxarea nd, r) (show_areas nd i None).
Proof.
  intros nd i r H. destruct (sumstat i) eqn:B; [|unfold show_areas in H; rewrite B in H; exact H]. apply brief_sumstat in B. apply show_areas_all in H; [lia | exact B].
Qed.
Print Assumptions show_maxarea_refuted.
(** FALSE of the code: that asking for a node is harmless.  A number above the
    largest one of the area, or (on a level 2 router) an area above the largest, is
    an IndexError; on a Phase II node any node is an AttributeError.  The exception
    ends all connections of network management (session.py 767-786). *)
Theorem show_range_refuted : forall nd i k, brief i -> 0 < k ->
  (router nd -> area_of k = area_of (n_me nd) -> n_maxnodes nd < tid_of k -> show nd (QOne k) i QuAll = Err EIndex) /\
  (n_kind nd = KL2 -> area_of k <> area_of (n_me nd) -> n_maxarea nd < area_of k -> show nd (QOne k) i QuAll = Err EIndex) /\
  (n_kind nd = KPh2 -> show nd (QOne k) i QuAll = Err EAttr).
Proof.
  intros nd i k B K. unfold show. replace (k =? 0) with false by (symmetry; apply Z.eqb_neq; lia). unfold route_read. split; [|split].
  - intros RT A N. assert (E : forall d, route_node nd i k d = Err EIndex).
    { intro d. unfold route_node. rewrite A, Z.eqb_refl. unfold at_. replace (tid_of k <=? n_maxnodes nd) with false by (symmetry; apply Z.leb_gt; lia). destruct RT as [-> | ->]; reflexivity. }
    rewrite E. destruct B as [-> | ->]; reflexivity.
  - intros KD A N. assert (E : forall d, route_node nd i k d = Err EIndex).
    { intro d. unfold route_node. replace (area_of k =? area_of (n_me nd)) with false by (symmetry; apply Z.eqb_neq, A). unfold at_. replace (area_of k <=? n_maxarea nd) with false by (symmetry; apply Z.leb_gt; lia). rewrite KD. reflexivity. }
    rewrite E. destruct B as [-> | ->]; reflexivity.
  - intro KD. assert (E : forall d, route_node nd i k d = Err EAttr) by (intro d; unfold route_node; rewrite KD; reflexivity). rewrite E. destruct B as [-> | ->]; reflexivity.
Qed.
Print Assumptions show_range_refuted.
(** FALSE of the code: that all loop nodes are listed.  They all have address
    0 and so share one record, however many there are. *)
Theorem show_loop_refuted : forall nd i qu l, sane nd -> show nd QLoop i qu = Ok (Shown l) -> (length l <= 1)%nat.
Proof.
  intros nd i qu l S E. destruct (show_order nd QLoop i qu l S Logic.I E) as (f & rest & -> & F & SO & NI). pose proof (show_listed nd QLoop i qu _ S Logic.I E) as L.
  assert (Z0 : forall k, In k (map fst (f ++ rest)) -> k = 0).
  { intros k I. apply L in I as [_ [(e & I & <- & H) | H]]; [destruct S as (_ & _ & _ & _ & S); destruct (Z.eq_dec (e_num e) 0); [assumption|]; contradiction H; apply S; assumption|].
    unfold by_routing in H. destruct i; try contradiction H. destruct H as (_ & _ & H & _). contradiction H. reflexivity. }
  rewrite app_length. assert (R : (length rest <= 1)%nat).
  { destruct rest as [|x [|y t]]; cbn; try lia. inversion SO as [|? ? _ FA]; subst. inversion FA as [|? ? U _]; subst. unfold under in U.
    assert (fst x = 0) by (apply Z0; rewrite map_app; apply in_or_app; right; left; reflexivity). assert (fst y = 0) by (apply Z0; rewrite map_app; apply in_or_app; right; right; left; reflexivity). lia. }
  destruct F as [-> | (r & ->)]; [exact R|]. assert (M : n_me nd = 0) by (apply Z0; left; reflexivity). destruct S as (_ & S & _). lia.
Qed.
Print Assumptions show_loop_refuted.
(** FALSE of the code: that nodes of one circuit can be asked for.  Every node
    of the database is listed, whatever circuit is named. *)
Theorem show_circuit_refuted : forall nd i s l k, sane nd -> known_to nd k -> show nd QKnown i (QuCirc s) = Ok (Shown l) -> In k (map fst l).
Proof. intros nd i s l k S K E. apply (show_listed nd QKnown i (QuCirc s) l S Logic.I E). split; [exact Logic.I | left; exact K]. Qed.
Print Assumptions show_circuit_refuted.

(** *** A case *)
Definition net : node := mkNode KL2 1025
  [mkEnt 1025 [65] None 0 true; mkEnt 1026 [66] None 2500 true; mkEnt 0 [76] (Some [99]) 0 false; mkEnt 0 [77] (Some [100]) 0 false; mkEnt 2049 [67] None 300 false] [1026; 1026; 2049]
  [mkCirc [99] true 4 [(1026, 4); (2049, 3)]; mkCirc [100] false 2 [(1027, 5)]]
  8 (fun t => if t =? 1 then OSelf else if t =? 2 then OAdj (mkAdj 1026 [99] 4) else if t =? 3 then OAdj (mkAdj 1027 [100] 5) else if t =? 4 then OAdj (mkAdj 1026 [99] 4) else ONone)
  (fun t => if t =? 4 then 2 else 1) (fun t => if t =? 4 then 7 else 4) 3 (fun a => if a =? 1 then OSelf else if a =? 2 then OAdj (mkAdj 2049 [99] 3) else ONone) (fun _ => 1) (fun _ => 4).
Example net_sane : sane net.
Proof.
  repeat split; try (cbn; lia); intros; cbn [net n_db In] in *.
  - cbn [n_oadj net n_maxnodes] in *. change (tid_of (n_me net)) with 1. destruct (Z.eqb_spec t 1); [assumption|]. repeat (match goal with H : context [if ?b then _ else _] |- _ => destruct b end); discriminate.
  - subst t. reflexivity.
  - repeat match goal with H : _ \/ _ |- _ => destruct H as [<- | H] | H : False |- _ => contradiction H end; cbn in *; congruence.
  - repeat match goal with H : _ \/ _ |- _ => destruct H as [<- | H] | H : False |- _ => contradiction H end; cbn in *; congruence.
  - repeat match goal with H : _ \/ _ |- _ => destruct H as [<- | H] | H : False |- _ => contradiction H end; cbn in *; congruence.
Qed.
Example net_active : show net QActive IStat QuAll = Ok (Shown
  [(1025, mkRec [65] true (Some 0) None None None None None None None None);
   (1026, mkRec [66] false (Some 4) (Some [99]) None (Some 1) (Some 4) (Some 4) (Some 2) (Some 2) None);
   (1027, mkRec [] false (Some 4) (Some [100]) None (Some 1) (Some 4) (Some 5) None None None);
   (1028, mkRec [] false (Some 4) (Some [99]) None (Some 2) (Some 7) None None None None);
   (2049, mkRec [67] false None (Some [99]) None (Some 1) (Some 4) (Some 3) (Some 1) (Some 1) None)]).
Proof. vm_compute. reflexivity. Qed.
Example net_loop : exists l, show net QLoop IChar QuAll = Ok (Shown l) /\ map fst l = [0].
Proof. eexists. split; [vm_compute; reflexivity | reflexivity]. Qed.
Example net_tables : in_table net 1028 /\ in_table net 1029 /\ n_oadj net (tid_of 1029) = ONone /\ neighbour net QuAll 2049.
Proof. repeat split; try (vm_compute; congruence); try (right; reflexivity). exists (mkCirc [99] true 4 [(1026, 4); (2049, 3)]), 3. cbn. auto. Qed.
Example net_abroad : area_of 2050 <> area_of (n_me net) /\ (n_kind net = KL2 -> area_of 2050 <= n_maxarea net) /\ exists r, show net (QOne 2050) IStat QuAll = Ok (Shown [(2050, r)]).
Proof. split; [vm_compute; discriminate|]. split; [intros _; vm_compute; discriminate|]. eexists. vm_compute. reflexivity. Qed.
