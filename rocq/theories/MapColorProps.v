(** Property C86: the colours of the map. *)
From Coq Require Import Permutation.
From Verif Require Import Base MapColorModel.

(** * Specification *)
Definition healthy (l : list Z) : Prop := Forall (fun h => 0 <= h <= 3) l.
(** What a colour tells: the numbers of what is up and what is down. *)
Definition tells (l : list Z) (c : color) : Prop :=
  match c with
  | Green => In 3 l /\ ~ In 2 l
  | Yellow => In 2 l /\ count 2 l < count 3 l
  | Red => In 2 l /\ count 3 l <= count 2 l
  | Gray => ~ In 3 l /\ ~ In 2 l
  end.
(** The adjacencies between two nodes, in either direction. *)
Definition between (a b : Z) (l : list (Z * Z * Z)) : list Z :=
  flat_map (fun x => let '(p, q, h) := x in if ((p =? a) && (q =? b)) || ((p =? b) && (q =? a)) then [h] else []) l.
(** The healthiest. *)
Definition best (l : list Z) (h : Z) : Prop := In h l /\ forall g, In g l -> g <= h.

Lemma count_in h l : 0 < count h l <-> In h l.
Proof.
  unfold count, zlen. induction l as [| x l IH]; cbn [filter In]; [cbn; lia |]. destruct (Z.eqb_spec x h) as [E | N]; cbn [length].
  - rewrite Nat2Z.inj_succ. split; [intros _; auto | lia].
  - rewrite IH. split; [auto | intros [E | I]; [contradiction | exact I]].
Qed.
Lemma count_nonneg h l : 0 <= count h l. Proof. unfold count, zlen. lia. Qed.
Lemma fold_max l : forall h, h <= fold_left Z.max l h /\ (forall x, In x l -> x <= fold_left Z.max l h) /\ (fold_left Z.max l h = h \/ In (fold_left Z.max l h) l).
Proof.
  induction l as [| y l IH]; intros h; cbn [fold_left In]; [split; [lia | split; [intros x [] | auto]] |].
  destruct (IH (Z.max h y)) as (A & B & C). split; [lia |]. split; [intros x [E | I]; [subst; lia | exact (B x I)] |].
  destruct C as [C | C]; [| auto]. destruct (Z.max_dec h y) as [M | M]; [left; congruence | right; left; congruence].
Qed.
Lemma color_spec gone l : healthy l -> l <> [] -> (exists c, color_of gone l = Ok (Some c) /\ tells l c) \/ (color_of gone l = Ok gone /\ forall h, In h l -> h = 0).
Proof.
  intros H N. unfold color_of. destruct l as [| h r]; [contradiction |]. cbv zeta. destruct (fold_max r h) as (A & B & C).
  set (t := fold_left Z.max r h) in *. set (l := h :: r) in *.
  assert (M : forall x, In x l -> x <= t) by (intros x [E | I]; [subst; exact A | exact (B x I)]).
  assert (I : In t l) by (destruct C as [C | C]; [left; symmetry; exact C | right; exact C]). clearbody t. clear A B C.
  pose proof (count_nonneg 2 l). pose proof (count_in 2 l) as C2. pose proof (count_in 3 l) as C3.
  assert (T : 0 <= t <= 3) by (unfold healthy in H; rewrite Forall_forall in H; exact (H t I)).
  destruct (Z.eqb_spec t 3) as [E3 | N3]; cbn [andb].
  - subst t. destruct (Z.eqb_spec (count 2 l) 0) as [Z2 | Z2]; cbn [negb].
    + left. exists Green. split; [reflexivity |]. split; [exact I |]. rewrite <- C2. lia.
    + left. destruct (Z.ltb_spec (count 2 l) (count 3 l)); [exists Yellow | exists Red]; (split; [reflexivity |]); (split; [apply C2; lia | assumption]).
  - assert (N3' : ~ In 3 l) by (intros X; specialize (M 3 X); lia). unfold table.
    destruct (Z.eqb_spec t 0) as [E0 | N0]; [right; split; [reflexivity |] |].
    + intros x X. specialize (M x X). unfold healthy in H. rewrite Forall_forall in H. specialize (H x X). lia.
    + left. destruct (Z.eqb_spec t 1) as [E1 | N1]; [exists Gray; split; [reflexivity |]; split; [exact N3' |]; intros X; specialize (M 2 X); lia |].
      destruct (Z.eqb_spec t 2) as [E2 | N2]; [| lia]. exists Red. split; [reflexivity |]. subst t. split; [exact I |].
      pose proof (count_nonneg 3 l). assert (~ 0 < count 3 l) by (rewrite C3; exact N3'). lia.
Qed.
(** Colours tell different things. *)
Theorem map_tells l c d : tells l c -> tells l d -> c = d.
Proof.
  pose proof (count_in 3 l) as C3. pose proof (count_in 2 l) as C2. pose proof (count_nonneg 2 l).
  destruct c, d; cbn [tells]; intros [A B] [C D]; try reflexivity; exfalso; try contradiction; try lia;
  try (apply B; apply C3; lia); try (apply D; apply C3; lia); try (apply A; apply C3; lia); try (apply C; apply C3; lia).
Qed.
Print Assumptions map_tells.
(** A place with nodes has the colour that tells about them. *)
Theorem map_place l : healthy l -> l <> [] -> exists c, loc_color l = Ok (Some c) /\ tells l c.
Proof.
  intros H N. destruct (color_spec (Some Gray) l H N) as [X | [X Z0]]; [exact X |]. exists Gray. split; [exact X |].
  split; intros I; specialize (Z0 _ I); discriminate Z0.
Qed.
Print Assumptions map_place.
(** A place without nodes is an exception, which ends the making of the map. *)
Theorem map_empty_refuted : ~ (forall l, healthy l -> exists c, loc_color l = Ok c).
Proof. intros H. destruct (H [] ltac:(constructor)) as [c E]. discriminate E. Qed.
Print Assumptions map_empty_refuted.

Lemma key_sym a b : key a b = key b a.
Proof. unfold key. destruct (Z.gtb_spec a b), (Z.gtb_spec b a); try reflexivity; try lia. replace b with a by lia. reflexivity. Qed.
Lemma key_iff a b p q : key p q = key a b <-> (p = a /\ q = b) \/ (p = b /\ q = a).
Proof.
  split; [| intros [[-> ->] | [-> ->]]; [reflexivity | apply key_sym]].
  unfold key. destruct (Z.gtb_spec p q), (Z.gtb_spec a b); intros E; injection E as <- <-; auto.
Qed.
Lemma key_eqb_iff k l : key_eqb k l = true <-> k = l.
Proof. destruct k as [a b], l as [c d]. unfold key_eqb. cbn [fst snd]. rewrite andb_true_iff, !Z.eqb_eq. split; [intros [-> ->]; reflexivity | intros E; injection E as -> ->; auto]. Qed.
Lemma find_put k h l c : find l (put k h c) = if key_eqb k l then Some h else find l c.
Proof.
  induction c as [| [m g] c IH]; cbn [put find]; [reflexivity |]. destruct (key_eqb m k) eqn:E; cbn [find].
  - apply key_eqb_iff in E. subst m. destruct (key_eqb k l); reflexivity.
  - destruct (key_eqb m l) eqn:F; [| exact IH]. destruct (key_eqb k l) eqn:G; [| reflexivity].
    apply key_eqb_iff in F, G. subst. rewrite (proj2 (key_eqb_iff l l) eq_refl) in E. discriminate E.
Qed.
Lemma path_snoc l x : path (l ++ [x]) = padd (path l) x.
Proof. unfold path. rewrite fold_left_app. reflexivity. Qed.
Lemma between_snoc a b l p q h : between a b (l ++ [(p, q, h)]) = between a b l ++ (if key_eqb (key p q) (key a b) then [h] else []).
Proof.
  unfold between. rewrite flat_map_app. cbn [flat_map]. rewrite app_nil_r. f_equal.
  assert (E : ((p =? a) && (q =? b) || (p =? b) && (q =? a)) = key_eqb (key p q) (key a b)); [| rewrite E; reflexivity].
  apply eq_true_iff_eq. rewrite key_eqb_iff, key_iff, orb_true_iff, !andb_true_iff, !Z.eqb_eq. reflexivity.
Qed.
(** Of all adjacencies between two nodes, seen from either end and over any circuit, the path
    keeps the healthiest; it keeps none if all are gone. *)
Theorem map_best l a b : Forall (fun x => 0 <= snd x) l ->
  match find (key a b) (path l) with
  | Some h => 0 < h /\ best (between a b l) h
  | None => forall g, In g (between a b l) -> g = 0
  end.
Proof.
  induction l as [| [[p q] h] l IH] using rev_ind; intros F; [intros g [] |].
  apply Forall_app in F as [F Fh]. specialize (IH F). inversion Fh as [| x y Hh]; subst. cbn [snd] in Hh. clear Fh.
  rewrite path_snoc, between_snoc. unfold padd. cbv zeta.
  destruct (key_eqb (key p q) (key a b)) eqn:K.
  - apply key_eqb_iff in K. rewrite K. destruct (find (key a b) (path l)) as [g |] eqn:G.
    + destruct IH as (P & I & M). destruct (Z.ltb_spec g h) as [L | L].
      * rewrite find_put, (proj2 (key_eqb_iff (key a b) (key a b)) eq_refl). split; [lia |]. split; [apply in_or_app; right; left; reflexivity |].
        intros x X. apply in_app_or in X as [X | [X | []]]; [specialize (M x X); lia | lia].
      * rewrite G. split; [exact P |]. split; [apply in_or_app; left; exact I |]. intros x X. apply in_app_or in X as [X | [X | []]]; [exact (M x X) | lia].
    + destruct (Z.ltb_spec 0 h) as [L | L].
      * rewrite find_put, (proj2 (key_eqb_iff (key a b) (key a b)) eq_refl). split; [lia |]. split; [apply in_or_app; right; left; reflexivity |].
        intros x X. apply in_app_or in X as [X | [X | []]]; [specialize (IH x X); lia | lia].
      * rewrite G. intros x X. apply in_app_or in X as [X | [X | []]]; [exact (IH x X) | lia].
  - rewrite app_nil_r. assert (E : find (key a b) (if match find (key p q) (path l) with Some g => g | None => 0 end <? h then put (key p q) h (path l) else path l) = find (key a b) (path l)).
    { destruct (_ <? h); [| reflexivity]. rewrite find_put, K. reflexivity. }
    rewrite E. exact IH.
Qed.
Print Assumptions map_best.

Lemma put_in k h c m g : In (m, g) (put k h c) -> (m, g) = (k, h) \/ In (m, g) c.
Proof.
  induction c as [| [l f] c IH]; cbn [put In]; [intros [E | []]; auto |]. destruct (key_eqb l k) eqn:E; cbn [In].
  - apply key_eqb_iff in E. subst l. intros [X | X]; auto.
  - intros [X | X]; [auto |]. destruct (IH X); auto.
Qed.
Lemma path_healthy l : Forall (fun x => 0 <= snd x <= 3) l -> Forall (fun h => 1 <= h <= 3) (map snd (path l)).
Proof.
  intros F. apply Forall_forall. intros h I. apply in_map_iff in I as ((k & g) & E & I). cbn [snd] in E. subst g. revert k h I.
  induction l as [| [[p q] x] l IH] using rev_ind; intros k h I; [destruct I |]. apply Forall_app in F as [F Fx]. inversion Fx as [| u v Hx]; subst. cbn [snd] in Hx.
  specialize (IH F). rewrite path_snoc in I. unfold padd in I. cbv zeta in I.
  destruct (Z.ltb_spec (match find (key p q) (path l) with Some g => g | None => 0 end) x) as [L | L]; [| exact (IH k h I)].
  apply put_in in I as [E | I]; [| exact (IH k h I)]. injection E as -> ->.
  assert (0 <= match find (key p q) (path l) with Some g => g | None => 0 end); [| lia].
  destruct (find (key p q) (path l)) as [g |] eqn:G; [| lia].
  pose proof (map_best l p q) as MB. rewrite G in MB. destruct MB as [P _]; [| lia]. eapply Forall_impl; [| exact F]. cbv beta. intros z Z0. lia.
Qed.
(** A path is drawn if it has an adjacency that is not gone, in the colour that tells about
    its pairs of nodes; otherwise it is not drawn.  There is no exception. *)
Theorem map_draw l : Forall (fun x => 0 <= snd x <= 3) l ->
  (path l = [] /\ draw l = Ok None) \/ exists c, draw l = Ok (Some c) /\ tells (map snd (path l)) c.
Proof.
  intros F. pose proof (path_healthy l F) as P. unfold draw. destruct (path l) as [| [k h] c] eqn:E; [left; split; reflexivity |]. right.
  assert (N : forallb (fun h => h =? 0) (map snd ((k, h) :: c)) = false).
  { cbn [map forallb snd]. inversion P as [| u v Hh]; subst. cbn [snd] in Hh. replace (h =? 0) with false by lia. reflexivity. }
  rewrite N. unfold path_color. rewrite E. destruct (color_spec None (map snd ((k, h) :: c))) as [X | [X Z0]].
  - unfold healthy. eapply Forall_impl; [| exact P]. cbv beta. lia.
  - discriminate.
  - exact X.
  - exfalso. specialize (Z0 h (or_introl eq_refl)). inversion P as [| u v Hh]; subst. cbn [snd] in Hh. lia.
Qed.
Print Assumptions map_draw.

Example map_ex : loc_color [3; 2; 3; 1] = Ok (Some Yellow) /\ loc_color [3; 2] = Ok (Some Red) /\ loc_color [0; 1] = Ok (Some Gray) /\ loc_color [3; 0] = Ok (Some Green).
Proof. repeat split. Qed.
Example map_ex_path : let l := [(1, 2, 2); (2, 1, 3); (1, 3, 2); (3, 1, 0)] in path l = [((1, 2), 3); ((1, 3), 2)] /\ draw l = Ok (Some Red) /\ draw [(1, 2, 0)] = Ok None.
Proof. repeat split. Qed.
