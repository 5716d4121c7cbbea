(** C82: a Phase II node sends to neighbours directly and to others by a neighbour that
    offers intercept service; where it fails. *)
From Verif Require Import Base P2RouteModel.

(** * Specification *)
(** The adjacencies that are up: came up and did not go down since. *)
Definition adj_eqb (a b : adj) : bool :=
  (match a_circ a, a_circ b with Some x, Some y => x =? y | None, None => true | _, _ => false end) && (a_node a =? a_node b) && Bool.eqb (a_icpt a) (a_icpt b).
Definition istep (s : list adj) (e : event) : list adj :=
  match e with Up a => a :: s | Down a => filter (fun b => negb (adj_eqb b a)) s end.
Definition is_up (l : list event) : list adj := fold_left istep l [].
(** Circuits that go up when they were down and down when they were up, each with a
    neighbour of its own, which is not this node. *)
Fixpoint separate (me : Z) (s : list adj) (l : list event) : Prop :=
  match l with
  | [] => True
  | Up a :: t => a_node a <> me /\ a_circ a <> None /\ (forall b, In b s -> a_node b <> a_node a) /\ separate me (istep s (Up a)) t
  | Down a :: t => In a s /\ separate me (istep s (Down a)) t
  end.

(** * Lemmas *)
Lemma adj_eqb_iff a b : adj_eqb a b = true <-> a = b.
Proof.
  unfold adj_eqb. destruct a as [[c |] n i], b as [[d |] m j]; cbn [a_circ a_node a_icpt]; rewrite ?andb_true_iff, ?Z.eqb_eq, ?Bool.eqb_true_iff; split; intros H; try (injection H as <- <- <-; auto); try (injection H as <- <-; auto); try discriminate H; try (destruct H as [[H _] _]; discriminate H); destruct H as [[H1 H2] H3]; congruence.
Qed.
Lemma get_put t k v x : get (put t k v) x = if x =? k then Some v else get t x.
Proof.
  induction t as [| [y a] r IH]; cbn [put get].
  - rewrite (Z.eqb_sym k x). reflexivity.
  - destruct (Z.eqb_spec y k) as [-> | N]; cbn [get].
    + rewrite (Z.eqb_sym k x). destruct (x =? k); reflexivity.
    + rewrite IH. destruct (Z.eqb_spec y x) as [-> | M]; [| reflexivity]. destruct (Z.eqb_spec x k); [congruence | reflexivity].
Qed.
Lemma keys_put t k v x : In x (map fst (put t k v)) <-> x = k \/ In x (map fst t).
Proof.
  induction t as [| [y a] r IH]; cbn [put map fst In]; [intuition |]. destruct (Z.eqb_spec y k) as [-> | N]; cbn [map fst In]; [intuition | rewrite IH; intuition].
Qed.
Lemma nodup_put t k v : NoDup (map fst t) -> NoDup (map fst (put t k v)).
Proof.
  induction t as [| [y a] r IH]; cbn [put map fst]; intros H; [repeat constructor; intros [] |]. inversion_clear H as [| ? ? H1 H2].
  destruct (Z.eqb_spec y k) as [-> | N]; cbn [map fst]; constructor; auto. rewrite keys_put. intuition.
Qed.
Lemma get_none t k : ~ In k (map fst t) -> get t k = None.
Proof. induction t as [| [y a] r IH]; cbn [map fst In get]; intros H; [reflexivity |]. destruct (Z.eqb_spec y k); [tauto | apply IH; tauto]. Qed.
Lemma keys_del t k x : In x (map fst (del t k)) -> In x (map fst t).
Proof. induction t as [| [y a] r IH]; cbn [del map fst In]; [auto |]. destruct (y =? k); cbn [map fst In]; [auto | intuition]. Qed.
Lemma nodup_del t k : NoDup (map fst t) -> NoDup (map fst (del t k)).
Proof.
  induction t as [| [y a] r IH]; cbn [del map fst]; intros H; [constructor |]. inversion_clear H as [| ? ? H1 H2]. destruct (y =? k); [exact H2 |].
  cbn [map fst]. constructor; [intros I; apply H1, (keys_del r k y I) | auto].
Qed.
Lemma get_del t k x : NoDup (map fst t) -> get (del t k) x = if x =? k then None else get t x.
Proof.
  induction t as [| [y a] r IH]; cbn [del map fst get]; intros H; [destruct (x =? k); reflexivity |]. inversion_clear H as [| ? ? H1 H2].
  destruct (Z.eqb_spec y k) as [-> | N]; cbn [get].
  - destruct (Z.eqb_spec x k) as [E | M]; [rewrite E; exact (get_none r k H1) |]. destruct (Z.eqb_spec k x); [congruence | reflexivity].
  - rewrite (IH H2). destruct (Z.eqb_spec y x) as [-> | M]; [| reflexivity]. destruct (Z.eqb_spec x k); [congruence | reflexivity].
Qed.
Lemma get_in t k a : NoDup (map fst t) -> (In (k, a) t <-> get t k = Some a).
Proof.
  induction t as [| [y b] r IH]; cbn [map fst get]; intros H; [split; [intros [] | discriminate] |]. inversion_clear H as [| ? ? H1 H2]. cbn [In].
  destruct (Z.eqb_spec y k) as [-> | N].
  - split; [intros [E | I]; [congruence | exfalso; exact (H1 (in_map fst r (k, a) I))] | intros E; injection E as ->; left; reflexivity].
  - rewrite <- (IH H2). split; [intros [E | I]; [congruence | exact I] | auto].
Qed.
(** The table has the adjacencies that are up, and the local one. *)
Definition tinv (me : Z) (s : list adj) (t : table) : Prop :=
  NoDup (map fst t) /\ get t me = Some (mkA None me false) /\ (forall n a, n <> me -> (get t n = Some a <-> In a s /\ a_node a = n)) /\
  (forall a, In a s -> a_node a <> me /\ a_circ a <> None) /\ (forall a b, In a s -> In b s -> a_node a = a_node b -> a = b).
Lemma run_inv me l : forall s t, tinv me s t -> separate me s l -> tinv me (fold_left istep l s) (fold_left tstep l t).
Proof.
  induction l as [| e l IH]; intros s t I S; [exact I |]. cbn [fold_left]. destruct I as (ND & G & T & U & Q).
  destruct e as [a | a]; cbn [separate] in S.
  - destruct S as (NM & NC & D & S). apply IH; [| exact S]. cbn [istep tstep]. split; [exact (nodup_put t (a_node a) a ND) |].
    split; [rewrite get_put; destruct (Z.eqb_spec me (a_node a)); [congruence | exact G] |]. split; [| split].
    + intros n b N. rewrite get_put. cbn [In]. destruct (Z.eqb_spec n (a_node a)) as [-> | NE].
      * split; [intros E; injection E as <-; auto |]. intros [[-> | B] E]; [reflexivity |]. exfalso. exact (D b B E).
      * rewrite (T n b N). split; [intros [B E]; auto | intros [[-> | B] E]; [congruence | auto]].
    + intros b [<- | B]; [auto | exact (U b B)].
    + intros x y [<- | X] [<- | Y] E; [reflexivity | exfalso; exact (D y Y (eq_sym E)) | exfalso; exact (D x X E) | exact (Q x y X Y E)].
  - destruct S as (A & S). apply IH; [| exact S]. cbn [istep tstep].
    assert (FI : forall b, In b (filter (fun b => negb (adj_eqb b a)) s) <-> In b s /\ b <> a).
    { intros b. rewrite filter_In, negb_true_iff. split; intros [B C]; (split; [exact B |]); [intros ->; rewrite (proj2 (adj_eqb_iff a a) eq_refl) in C; discriminate C |].
      destruct (adj_eqb b a) eqn:E; [apply adj_eqb_iff in E; congruence | reflexivity]. }
    split; [exact (nodup_del t (a_node a) ND) |]. split; [| split; [| split]].
    + rewrite get_del by exact ND. destruct (Z.eqb_spec me (a_node a)) as [E | _]; [| exact G]. exfalso. exact (proj1 (U a A) (eq_sym E)).
    + intros n b N. rewrite get_del by exact ND. rewrite FI. destruct (Z.eqb_spec n (a_node a)) as [-> | NE].
      * split; [discriminate |]. intros [[B C] E]. exfalso. apply C. exact (Q b a B A E).
      * rewrite (T n b N). split; [intros [B E]; split; [split; [exact B | congruence] | exact E] | intros [[B _] E]; auto].
    + intros b B. apply FI in B as [B _]. exact (U b B).
    + intros x y X Y E. apply FI in X as [X _]. apply FI in Y as [Y _]. exact (Q x y X Y E).
Qed.
Lemma inv0 me : tinv me [] (table0 me).
Proof.
  unfold tinv, table0. split; [repeat constructor; intros [] |]. split; [cbn [get]; rewrite Z.eqb_refl; reflexivity |].
  split; [| split; [intros a [] | intros a b []]]. intros n a N. cbn [get]. destruct (Z.eqb_spec me n); [congruence |]. split; [discriminate | intros [[] _]].
Qed.

(** * Theorems *)
(** A packet for a neighbour goes out on the circuit to it; for another node on a circuit
    whose neighbour is asked for intercept service, if one is up; and only if there is
    none it is not sent.  Always with the address of the destination. *)
Theorem p2_send me l n rqr : separate me [] l -> n <> me ->
  let up := is_up l in let r := p2send me (trun me l) (DNode n) rqr in
  (forall a c, In a up -> a_node a = n -> a_circ a = Some c -> r = Ok (Sent c n)) /\
  ((forall a, In a up -> a_node a <> n) -> (exists a, In a up /\ a_icpt a = true) ->
     exists a c, In a up /\ a_icpt a = true /\ a_circ a = Some c /\ r = Ok (Sent c n)) /\
  ((forall a, In a up -> a_node a <> n) -> (forall a, In a up -> a_icpt a = false) -> r = Ok No).
Proof.
  intros S N. cbv zeta. destruct (run_inv me l [] (table0 me) (inv0 me) S) as (ND & G & T & U & Q). fold (is_up l) in *. fold (trun me l) in *.
  set (t := trun me l) in *. clearbody t. unfold p2send. split; [| split].
  - intros a c A E C. rewrite (proj2 (T n a N) (conj A E)). unfold transmit. rewrite C. reflexivity.
  - intros F (a & A & I).
    assert (GN : get t n = None) by (destruct (get t n) as [b |] eqn:B; [apply (T n b N) in B as [B E]; exfalso; exact (F b B E) | reflexivity]). rewrite GN.
    destruct (find (fun e => a_icpt (snd e)) t) as [[k b] |] eqn:FD.
    + apply find_some in FD as [B IB]. cbn [snd] in IB. apply (get_in t k b ND) in B.
      destruct (Z.eq_dec k me) as [-> | KM]; [rewrite G in B; injection B as <-; discriminate IB |].
      apply (T k b KM) in B as [B _]. destruct (U b B) as [_ C]. destruct (a_circ b) as [c |] eqn:CB; [| congruence].
      exists b, c. split; [exact B |]. split; [exact IB |]. split; [exact CB |]. unfold transmit. rewrite CB. reflexivity.
    + exfalso. pose proof (proj1 (U a A)) as AM. pose proof (proj2 (get_in t (a_node a) a ND) (proj2 (T (a_node a) a AM) (conj A eq_refl))) as IA.
      pose proof (find_none _ _ FD _ IA) as X. cbn [snd] in X. congruence.
  - intros F I. assert (GN : get t n = None) by (destruct (get t n) as [b |] eqn:B; [apply (T n b N) in B as [B E]; exfalso; exact (F b B E) | reflexivity]). rewrite GN.
    destruct (find (fun e => a_icpt (snd e)) t) as [[k b] |] eqn:FD; [| reflexivity].
    apply find_some in FD as [B IB]. cbn [snd] in IB. apply (get_in t k b ND) in B.
    destruct (Z.eq_dec k me) as [-> | KM]; [rewrite G in B; injection B as <-; discriminate IB |]. apply (T k b KM) in B as [B _]. rewrite (I b B) in IB. discriminate IB.
Qed.
Print Assumptions p2_send.

(** To a loop node: on its circuit if that is looped back to this node; otherwise a
    connect request comes back to NSP as not delivered. *)
Theorem p2_loop me t rqr :
  (forall c i, p2send me t (DLoop (Some (mkA (Some c) me i))) rqr = Ok (Sent c me)) /\
  (forall a, (forall x, a = Some x -> a_node x <> me) -> p2send me t (DLoop a) rqr = Ok (if rqr then Returned else No)).
Proof.
  split.
  - intros c i. cbn [p2send a_node]. rewrite Z.eqb_refl. reflexivity.
  - intros a N. destruct a as [x |]; cbn [p2send]; [destruct (Z.eqb_spec (a_node x) me) as [E | _]; [exfalso; exact (N x eq_refl E) |] |]; destruct rqr; reflexivity.
Qed.
Print Assumptions p2_loop.

(** Not so: to itself a Phase II node can not send, it is an exception, in every state
    reached with separate neighbours. *)
Theorem p2_self me l rqr : separate me [] l -> p2send me (trun me l) (DNode me) rqr = Err EAttr.
Proof.
  intros S. destruct (run_inv me l [] (table0 me) (inv0 me) S) as (_ & G & _). fold (trun me l) in G. unfold p2send. rewrite G. reflexivity.
Qed.
Print Assumptions p2_self.
(** Not so with two circuits to a neighbour: when one goes down the neighbour is not
    reached, although the other is up. *)
Theorem p2_two_refuted : ~ (forall me l n a, n <> me -> In a (is_up l) -> a_node a = n -> a_circ a <> None -> exists c, p2send me (trun me l) (DNode n) false = Ok (Sent c n)).
Proof.
  intros H. destruct (H 1 [Up (mkA (Some 10) 2 false); Up (mkA (Some 11) 2 false); Down (mkA (Some 10) 2 false)] 2 (mkA (Some 11) 2 false)) as (c & C);
    [discriminate | left; reflexivity | reflexivity | discriminate | discriminate C].
Qed.
Print Assumptions p2_two_refuted.
(** Not so: a connect request to a node that is not reached does not come back; the
    flag makes no difference. *)
Theorem p2_rqr me t n : p2send me t (DNode n) true = p2send me t (DNode n) false /\ p2send me t (DNode n) true <> Ok Returned.
Proof.
  split; [reflexivity |]. unfold p2send, transmit. destruct (get t n) as [a |]; [destruct (a_circ a); discriminate |].
  destruct (find (fun e => a_icpt (snd e)) t) as [[k a] |]; [destruct (a_circ a); discriminate | discriminate].
Qed.
Print Assumptions p2_rqr.

(** * Concrete cases *)
Definition hist : list event := [Up (mkA (Some 10) 2 false); Up (mkA (Some 11) 3 true); Down (mkA (Some 10) 2 false); Up (mkA (Some 10) 2 false)].
Example p2_ex : separate 1 [] hist /\ p2send 1 (trun 1 hist) (DNode 2) false = Ok (Sent 10 2) /\ p2send 1 (trun 1 hist) (DNode 9) false = Ok (Sent 11 9) /\ p2send 1 (trun 1 []) (DNode 9) true = Ok No.
Proof. cbn. repeat split; intros; intuition (try discriminate; subst; discriminate). Qed.
