(** C81: the topology server names the reachable nodes; but says that there are none. *)
From Coq Require Import Permutation.
From Verif Require Import Base TopolModel.

(** * Specification: the client, doc/protocols/topol.txt *)
(** [items k b]: k items of kind node name at the start of b. *)
Fixpoint items (k : nat) (b : list Z) : option (list name * list Z) :=
  match k with
  | O => Some ([], b)
  | S k =>
      match b with
      | 1 :: n :: t =>
          if Nat.ltb (length t) (Z.to_nat n) then None
          else match items k (skipn (Z.to_nat n) t) with Some (l, r) => Some (firstn (Z.to_nat n) t :: l, r) | None => None end
      | _ => None
      end
  end.
Definition client (b : list Z) : option (list name) :=
  match b with
  | 2 :: 6 :: 1 :: 0 :: 0 :: 7 :: c :: t => match items (Z.to_nat c) t with Some (l, _) => Some l | None => None end
  | _ => None
  end.
Definition fits (n : name) : Prop := zlen n <= 6 /\ Forall (fun c => 0 <= c <= 255) n.

Lemma nodup_firstn A k (l : list A) : NoDup l -> NoDup (firstn k l).
Proof.
  intros N. rewrite <- (firstn_skipn k l) in N. revert N. generalize (firstn k l), (skipn k l). intros x y. induction x as [| z x IH]; intros N; [constructor |].
  cbn [app] in N. inversion_clear N as [| ? ? N1 N2]. constructor; [intros I; apply N1, in_or_app; left; exact I | exact (IH N2)].
Qed.

(** * Theorems *)
(** At most 50 names, none twice, each given in the argument or of an active node, in
    capital letters; and all of them if there are no more than 50. *)
Theorem topol_names o arg active : (forall l, Permutation (o l) l) ->
  let l := names o arg active in
  let from n := (exists s w, arg = Some s /\ In w (split s) /\ n = upper w) \/ (exists w, In w active /\ w <> [] /\ n = upper w) in
  (length l <= 50)%nat /\ NoDup l /\ (forall n, In n l -> from n) /\
  ((length (match arg with Some s => split s | None => [] end) + length active <= 50)%nat -> forall n, from n -> In n l).
Proof.
  intros O. cbv zeta. unfold names. set (a := match arg with Some s => map upper (split s) | None => [] end).
  set (f := fun n : name => match n with [] => false | _ => true end). set (b := map upper (filter f active)).
  set (dd := nodup (list_eq_dec Z.eq_dec) (a ++ b)).
  assert (FI : forall n, In n (a ++ b) <-> (exists s w, arg = Some s /\ In w (split s) /\ n = upper w) \/ (exists w, In w active /\ w <> [] /\ n = upper w)).
  { intros n. rewrite in_app_iff. unfold a, b. rewrite (in_map_iff upper (filter f active)). split.
    - intros [H | (w & E & W)].
      + left. destruct arg as [s |]; [| destruct H]. apply in_map_iff in H as (w & E & W). exists s, w. auto.
      + right. apply filter_In in W as [W F]. exists w. split; [exact W |]. split; [| congruence]. intros ->. discriminate F.
    - intros [(s & w & -> & W & ->) | (w & W & N & ->)]; [left; apply in_map; exact W |]. right. exists w. split; [reflexivity |]. apply filter_In. split; [exact W |]. destruct w; [congruence | reflexivity]. }
  assert (ND : NoDup (o dd)) by (apply (Permutation_NoDup (Permutation_sym (O dd))), NoDup_nodup).
  split; [rewrite firstn_length; lia |]. split; [| split].
  - exact (nodup_firstn name 50 (o dd) ND).
  - intros n I. apply FI. apply (nodup_In (list_eq_dec Z.eq_dec)). fold dd. apply (Permutation_in n (O dd)). rewrite <- (firstn_skipn 50 (o dd)). apply in_or_app. left. exact I.
  - intros L n F. rewrite firstn_all2.
    + apply (Permutation_in n (Permutation_sym (O dd))). unfold dd. apply nodup_In, FI, F.
    + pose proof (Permutation_length (O dd)) as PL. change (length (o dd) <= 50)%nat. rewrite PL. unfold dd. pose proof (NoDup_incl_length (NoDup_nodup (list_eq_dec Z.eq_dec) (a ++ b)) (fun x H => proj1 (nodup_In _ _ x) H)) as Q.
      assert (LA : length a = length (match arg with Some s => split s | None => [] end)) by (unfold a; destruct arg; [apply map_length | reflexivity]).
      assert (LB : (length b <= length active)%nat).
      { unfold b. rewrite map_length. clear. induction active as [| x t IH]; cbn [filter length]; [lia |]. destruct (f x); cbn [length]; lia. }
      rewrite app_length, LA in Q. lia.
Qed.
Print Assumptions topol_names.

(** The names of the argument are what is between its commas; small letters, and no
    other characters, become capital letters. *)
Fixpoint join (l : list name) : list Z := match l with [] => [] | [w] => w | w :: r => w ++ 44 :: join r end.
Theorem topol_split s : join (split s) = s /\ Forall (fun w => ~ In 44 w) (split s) /\ split s <> [].
Proof.
  induction s as [| c t (J & F & N)]; [repeat split; [repeat constructor; intros [] | discriminate] |]. cbn [split]. destruct (Z.eqb_spec c 44) as [-> | C].
  - split; [| split; [constructor; [intros [] | exact F] | discriminate]]. destruct (split t) as [| w r] eqn:E; [congruence |].
    cbn [join app] in J |- *. rewrite J. reflexivity.
  - destruct (split t) as [| w r]; [congruence |]. inversion_clear F as [| ? ? F1 F2]. split; [| split; [constructor; [intros [X | X]; [exact (C X) | exact (F1 X)] | exact F2] | discriminate]].
    destruct r as [| w2 r]; cbn [join app] in J |- *; rewrite J; reflexivity.
Qed.
Print Assumptions topol_split.
Theorem topol_upper w : Forall2 (fun c d => (97 <= c <= 122 /\ d = c - 32) \/ (~ 97 <= c <= 122 /\ d = c)) w (upper w).
Proof.
  induction w as [| c w IH]; [constructor |]. constructor; [| exact IH]. destruct (Z.leb_spec 97 c), (Z.leb_spec c 122); cbn [andb]; lia.
Qed.
Print Assumptions topol_upper.

Lemma entry_fits n : fits n -> node_entry n = Ok (1 :: zlen n :: n).
Proof.
  intros [L F]. unfold node_entry. destruct (Z.gtb_spec (zlen n) 6); [lia |].
  assert (B : forallb (fun c => (0 <=? c) && (c <=? 255)) n = true) by (apply forallb_forall; intros c C; rewrite Forall_forall in F; specialize (F c C); lia). rewrite B. reflexivity.
Qed.
Lemma entries_items l : Forall fits l -> exists p, entries l = Ok p /\ (forall t, items (length l) (p ++ t) = Some (l, t)) /\ (length p <= 8 * length l)%nat.
Proof.
  intros F. induction F as [| n l N F IH]; [exists []; repeat split; cbn; lia |].
  destruct IH as (p & P & I & L). exists ((1 :: zlen n :: n) ++ p). cbn [entries]. rewrite (entry_fits n N), P. cbn [bind]. split; [reflexivity |]. split.
  - intros t. cbn [length items app]. unfold zlen. rewrite Nat2Z.id. rewrite <- app_assoc.
    destruct (Nat.ltb_spec (length (n ++ p ++ t)) (length n)) as [X | _]; [rewrite app_length in X; lia |].
    rewrite skipn_app, skipn_all, Nat.sub_diag, skipn_O. cbn [app]. rewrite I. rewrite firstn_app, firstn_all, Nat.sub_diag, firstn_O, app_nil_r. reflexivity.
  - destruct N as [N _]. unfold zlen in N. cbn [app length]. rewrite app_length. lia.
Qed.
(** If the names fit there is a reply of no more than 407 bytes; after the header there
    are exactly the names, so a client that is told their number reads them. *)
Theorem topol_reply l : Forall fits l -> (length l <= 50)%nat ->
  exists p, topo_reply l = Ok ([2; 6; 1; 0; 0; 7; 0] ++ p) /\ zlen ([2; 6; 1; 0; 0; 7; 0] ++ p) <= 407 /\
    items (length l) p = Some (l, []) /\ client ([2; 6; 1; 0; 0; 7; zlen l] ++ p) = Some l.
Proof.
  intros F L. destruct (entries_items l F) as (p & P & I & S). exists p. unfold topo_reply. rewrite P. cbn [bind]. split; [reflexivity |].
  split; [unfold zlen; rewrite app_length; cbn [length]; lia |]. specialize (I []). rewrite app_nil_r in I. split; [exact I |].
  cbn [app client]. unfold zlen. rewrite Nat2Z.id, I. reflexivity.
Qed.
Print Assumptions topol_reply.
(** But the number in the reply is always 0: whatever the names, the client finds none. *)
Theorem topol_count l b : topo_reply l = Ok b -> client b = Some [].
Proof. unfold topo_reply. destruct (entries l) as [p | e]; cbn [bind]; intros H; [injection H as <-; reflexivity | discriminate H]. Qed.
Print Assumptions topol_count.
Theorem topol_client_refuted : ~ (forall l, Forall fits l -> (length l <= 50)%nat -> exists b, topo_reply l = Ok b /\ client b = Some l).
Proof.
  intros H. destruct (H [[65; 66]]) as (b & B & C); [repeat constructor; cbn; lia | cbn; lia |]. rewrite (topol_count _ b B) in C. discriminate C.
Qed.
Print Assumptions topol_client_refuted.
(** One name too long, which the argument can give, and there is no reply at all. *)
Theorem topol_long l n : In n l -> 6 < zlen n -> exists e, topo_reply l = Err e.
Proof.
  intros I L. assert (E : exists e, entries l = Err e).
  { induction l as [| x t IH]; [destruct I |]. cbn [entries]. destruct I as [-> | I].
    - unfold node_entry. destruct (Z.gtb_spec (zlen n) 6); [eexists; reflexivity | lia].
    - destruct (node_entry x); cbn [bind]; [| eexists; reflexivity]. destruct (IH I) as [e ->]. eexists. reflexivity. }
  destruct E as [e E]. exists e. unfold topo_reply. rewrite E. reflexivity.
Qed.
Print Assumptions topol_long.

(** * Concrete cases *)
Example topol_ex : names (fun l => l) (Some [97; 98; 44; 67]) [[67]; []; [100; 49]] = [[65; 66]; [67]; [68; 49]].
Proof. reflexivity. Qed.
Example topol_ex_reply : topo_reply [[65; 66]; [67]] = Ok [2; 6; 1; 0; 0; 7; 0; 1; 2; 65; 66; 1; 1; 67].
Proof. reflexivity. Qed.
