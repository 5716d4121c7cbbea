(** C31: logical link identifiers. *)
From Verif Require Import Base NspIdModel.
From Coq Require Import Permutation.

(** The permitted settings of max-connections (config.py): 2^k - 1, k = 8..15. *)
Definition permitted (maxconns : Z) : Prop := exists k, 8 <= k <= 15 /\ maxconns + 1 = 2 ^ k.
(** What init_id can leave in the free list. *)
Definition initial (maxconns : Z) (free : list Z) : Prop :=
  exists hs, zlen hs = maxconns /\ Forall (fun h => 0 <= h /\ (maxconns + 1) * h < 65536) hs /\ Permutation (fresh_ids (maxconns + 1) 1 hs) free.
Definition ireach (maxconns : Z) (s : list Z * list Z) (rs : list Z) : Prop :=
  exists free l, initial maxconns free /\ isteps maxconns ([], free) l = Ok (s, rs).

Definition low (c x : Z) : Z := x mod c.
Definition inv (m : Z) (s : list Z * list Z) : Prop :=
  NoDup (map (low (m + 1)) (fst s ++ snd s)) /\ Forall (fun x => 0 <= x < 65536 /\ low (m + 1) x <> 0) (fst s ++ snd s) /\ zlen (fst s ++ snd s) = m.

Lemma permitted_div : forall m, permitted m -> exists q, 2 <= q /\ 65536 = q * (m + 1) /\ 256 <= m + 1.
Proof.
  intros m [k [K ->]]. exists (2 ^ (16 - k)). replace 65536 with (2 ^ 16) by reflexivity.
  rewrite <- Z.pow_add_r by lia. replace (16 - k + k) with 16 by lia. split; [|split; [auto|]].
  - change 2 with (2 ^ 1) at 1. apply Z.pow_le_mono_r; lia.
  - change 256 with (2 ^ 8). apply Z.pow_le_mono_r; lia.
Qed.
Lemma land16 : forall x, Z.land x 65535 = x mod 65536.
Proof. intros x. change 65535 with (Z.ones 16). rewrite Z.land_ones by lia. reflexivity. Qed.
Lemma low_ret : forall m x, permitted m -> low (m + 1) ((x + m + 1) mod 65536) = low (m + 1) x.
Proof.
  intros m x P. destruct (permitted_div m P) as [q [Q [E C]]]. unfold low. rewrite E at 1.
  assert ((x + m + 1) mod (q * (m + 1)) = x + (m + 1) * (1 - q * ((x + m + 1) / (q * (m + 1))))) as ->.
  { rewrite Z.mod_eq by lia. ring. }
  rewrite Z.mul_comm, Z.mod_add by lia. reflexivity.
Qed.
Lemma fresh_spec : forall c hs i, 0 < c -> 1 <= i -> i + zlen hs <= c -> Forall (fun h => 0 <= h /\ c * h < 65536) hs -> (exists q, 65536 = q * c) ->
  Forall (fun x => 0 <= x < 65536 /\ i <= low c x < i + zlen hs) (fresh_ids c i hs) /\ NoDup (map (low c) (fresh_ids c i hs)) /\ zlen (fresh_ids c i hs) = zlen hs.
Proof.
  induction hs as [|h t IH]; intros i C I L F [q E].
  - repeat split; constructor.
  - cbn [fresh_ids map]. rewrite zlen_cons in *. inversion F as [|? ? F1 F2]; subst. destruct F1 as [F0 F1].
    destruct (IH (i + 1)) as [A [B D]]; auto; try lia; [exists q; auto|].
    pose proof (zlen_nonneg _ t) as ZN.
    assert (K : low c (i + c * h) = i) by (unfold low; rewrite Z.mul_comm, Z.mod_add by lia; apply Z.mod_small; lia).
    split; [constructor|split; [constructor|rewrite zlen_cons; lia]].
    + split; [|lia]. split; [nia|]. assert (h < q) by nia. assert (h + 1 <= q) by lia. assert (c * (h + 1) <= 65536) by nia. lia.
    + eapply Forall_impl; [|exact A]. cbn beta. intros x X. lia.
    + rewrite K. intros X. apply in_map_iff in X. destruct X as [y [Y1 Y2]]. rewrite Forall_forall in A. specialize (A y Y2). lia.
    + auto.
Qed.
Lemma inv_init : forall m free, permitted m -> initial m free -> inv m ([], free).
Proof.
  intros m free P [hs [L [F X]]]. destruct (permitted_div m P) as [q [Q [E C]]].
  destruct (fresh_spec (m + 1) hs 1) as [A [B D]]; auto; try lia; [exists q; auto|]. unfold inv. cbn [fst snd app].
  split; [eapply Permutation_NoDup; [apply Permutation_map; exact X|exact B]|]. split.
  - eapply Permutation_Forall; [exact X|]. eapply Forall_impl; [|exact A]. cbn beta. intros x Y. lia.
  - unfold zlen in *. rewrite <- (Permutation_length X). lia.
Qed.
Lemma zremove_perm : forall x l, In x l -> Permutation l (x :: zremove x l).
Proof.
  induction l as [|y t IH]; intros H; [destruct H|]. cbn [zremove]. destruct (Z.eqb_spec y x); [subst; auto|].
  destruct H as [H|H]; [congruence|]. rewrite (IH H) at 1. apply perm_swap.
Qed.
Lemma existsb_in : forall i l, existsb (Z.eqb i) l = true <-> In i l.
Proof.
  intros i l. rewrite existsb_exists. split; [intros [x [A B]]; apply Z.eqb_eq in B; subst; auto|intros H; exists i; split; [auto|apply Z.eqb_refl]].
Qed.
Lemma inv_step : forall m s o s' r, permitted m -> inv m s -> istep m s o = Ok (s', r) -> inv m s'.
Proof.
  intros m [open free] o s' r P [I1 [I2 I3]] H. cbn [fst snd] in *. unfold istep in H. destruct o as [|i].
  - destruct free as [|x f]; cbn [get_id] in H; inversion H; subst; [repeat split; auto|].
    unfold inv. cbn [fst snd]. rewrite <- app_assoc. cbn [app]. auto.
  - destruct (existsb (Z.eqb i) open) eqn:E; [|discriminate]. apply existsb_in in E. inversion H; subst s' r; clear H. unfold inv, ret_id. cbn [fst snd].
    pose proof (zremove_perm _ _ E) as R. rewrite land16.
    set (y := (i + m + 1) mod 65536).
    assert (PM : Permutation (map (low (m + 1)) (open ++ free)) (map (low (m + 1)) (zremove i open ++ free ++ [y]))).
    { rewrite !map_app. cbn [map]. rewrite (Permutation_map (low (m + 1)) R). cbn [map app]. unfold y. rewrite low_ret by auto.
      rewrite !app_assoc. apply Permutation_cons_append. }
    split; [eapply Permutation_NoDup; eauto|]. split.
    + apply Forall_app in I2. destruct I2 as [I2 I4]. rewrite !Forall_app. pose proof (Permutation_Forall R I2) as X. inversion X as [|? ? X1 X2]; subst.
      repeat split; auto. repeat constructor; unfold y; try (apply Z.mod_pos_bound; lia). rewrite low_ret by auto. apply X1.
    + unfold zlen in *. apply Permutation_length in PM. rewrite !map_length in PM. lia.
Qed.
Lemma inv_steps : forall m l s s' rs, permitted m -> inv m s -> isteps m s l = Ok (s', rs) -> inv m s'.
Proof.
  induction l as [|o t IH]; intros s s' rs P I H; cbn [isteps] in H.
  - inversion H; subst; auto.
  - apply bind_ok in H. destruct H as [[s1 r] [E H]]. apply bind_ok in H. destruct H as [[s2 r2] [E2 H]]. inversion H; subst.
    eapply IH; [exact P| |exact E2]. eapply inv_step; eauto.
Qed.
Lemma nodup_map_inv : forall A B (f : A -> B) l, NoDup (map f l) -> NoDup l.
Proof.
  induction l as [|x t IH]; intros H; constructor; inversion H; subst; auto. intros X. apply H2. apply in_map. auto.
Qed.

(** C31: at all times the ids of the open links are distinct, even in their low
    order bits, none is zero (nor are its low order bits), they fit in 16 bits,
    and a link can be opened unless max-connections are open. *)
Theorem ids_unique : forall m open free rs, permitted m -> ireach m (open, free) rs ->
  NoDup open /\ NoDup (map (fun x => x mod (m + 1)) open) /\
  (forall x, In x open -> 1 <= x < 65536 /\ x mod (m + 1) <> 0) /\
  (forall x, In x open -> ~ In x free) /\
  (free = [] <-> zlen open = m) /\ zlen open <= m.
Proof.
  intros m open free rs P [f0 [l [I H]]]. pose proof (inv_steps _ _ _ _ _ P (inv_init _ _ P I) H) as [A [B D]]. cbn [fst snd] in *.
  rewrite map_app in A. pose proof (NoDup_app_inv _ _ _ A) as [A1 [A2 A3]].
  split; [exact (nodup_map_inv _ _ _ _ A1)|]. split; [exact A1|].
  apply Forall_app in B. destruct B as [B1 B2]. rewrite Forall_forall in B1, B2.
  split; [|split]; [| |split].
  - intros x X. destruct (B1 x X) as [Y1 Y2]. unfold low in Y2. split; [|auto]. destruct (Z.eq_dec x 0); [subst; rewrite Zmod_0_l in Y2; lia|lia].
  - intros x X Y. apply (A3 (low (m + 1) x)); apply in_map; auto.
  - rewrite zlen_app in D. split; [intros ->; cbn in D; lia|]. intros E. destruct free; auto. rewrite zlen_cons in D. pose proof (zlen_nonneg _ free). lia.
  - rewrite zlen_app in D. pose proof (zlen_nonneg _ free). lia.
Qed.
Print Assumptions ids_unique.

(** Every time an id is returned while [l] runs at least [f] other ids are free. *)
Fixpoint roomy (m f : Z) (s : list Z * list Z) (l : list iop) : Prop :=
  match l with
  | [] => True
  | o :: t => match istep m s o with Ok (s1, _) => (match o with IClose _ => f <= zlen (snd s) | IOpen => True end) /\ roomy m f s1 t | Err _ => True end
  end.
(** The fate of the slot of [x]: [n] is the number of allocations of the slot
    since that of [x], [a] the number of all allocations since. *)
Definition slot (m f x n a : Z) (s : list Z * list Z) : Prop :=
  0 <= n /\
  ((In ((x + n * (m + 1)) mod 65536) (fst s) /\ n * (f + 1) <= a) \/
   (exists pre post, snd s = pre ++ ((x + (n + 1) * (m + 1)) mod 65536) :: post /\ n * (f + 1) + f <= a + zlen pre)).
Lemma slot_low : forall m x n, permitted m -> low (m + 1) ((x + n * (m + 1)) mod 65536) = low (m + 1) x.
Proof.
  intros m x n P. destruct (permitted_div m P) as [q [Q [E C]]]. unfold low. rewrite E at 1.
  assert ((x + n * (m + 1)) mod (q * (m + 1)) = x + (n - q * ((x + n * (m + 1)) / (q * (m + 1)))) * (m + 1)) as ->.
  { rewrite Z.mod_eq by lia. ring. }
  rewrite Z.mod_add by lia. reflexivity.
Qed.
Lemma slot_step : forall m f x n a s o s' r, permitted m -> 0 <= f -> inv m s -> slot m f x n a s -> istep m s o = Ok (s', r) ->
  (match o with IClose _ => f <= zlen (snd s) | IOpen => True end) ->
  exists n', slot m f x n' (a + match r with Some _ => 1 | None => 0 end) s'.
Proof.
  intros m f x n a [open free] o s' r P F I [N S] H R. cbn [fst snd] in *. unfold istep in H. destruct o as [|i].
  - destruct free as [|y t]; cbn [get_id] in H; inversion H; subst; clear H.
    + exists n. split; [auto|]. cbn [fst snd]. rewrite Z.add_0_r. auto.
    + destruct S as [[S1 S2]|[pre [post [S1 S2]]]].
      * exists n. split; [auto|]. left. cbn [fst snd]. split; [apply in_app_iff; auto|lia].
      * destruct pre as [|z pre].
        -- cbn [app] in S1. inversion S1; subst. exists (n + 1). split; [lia|]. left. cbn [fst snd]. split; [apply in_app_iff; right; left; auto|]. cbn in S2. nia.
        -- cbn [app] in S1. inversion S1; subst. exists n. split; [auto|]. right. exists pre, post. cbn [fst snd]. split; [auto|]. rewrite zlen_cons in S2. lia.
  - destruct (existsb (Z.eqb i) open) eqn:E; [|discriminate]. apply existsb_in in E. inversion H; subst; clear H. unfold ret_id. rewrite land16, Z.add_0_r.
    destruct S as [[S1 S2]|[pre [post [S1 S2]]]].
    + destruct (Z.eq_dec ((x + n * (m + 1)) mod 65536) i) as [K|K].
      * exists n. split; [auto|]. right. exists free, []. cbn [fst snd]. split; [|lia]. f_equal. f_equal. rewrite <- K.
        rewrite <- Z.add_assoc, Z.add_mod_idemp_l by lia. f_equal. ring.
      * exists n. split; [auto|]. left. cbn [fst snd]. split; [|lia]. pose proof (zremove_perm _ _ E) as Z. 
        apply (Permutation_in _ Z) in S1. destruct S1; [congruence|auto].
    + exists n. split; [auto|]. right. exists pre, (post ++ [(i + m + 1) mod 65536]). cbn [fst snd]. split; [|lia]. subst free. rewrite <- app_assoc. reflexivity.
Qed.
Lemma slot_steps : forall m f l x n a s s' rs, permitted m -> 0 <= f -> inv m s -> slot m f x n a s -> roomy m f s l -> isteps m s l = Ok (s', rs) ->
  exists n', slot m f x n' (a + zlen rs) s'.
Proof.
  induction l as [|o t IH]; intros x n a s s' rs P F I S R H; cbn [isteps] in H.
  - inversion H; subst. exists n. rewrite Z.add_0_r. auto.
  - apply bind_ok in H. destruct H as [[s1 r] [E H]]. apply bind_ok in H. destruct H as [[s2 r2] [E2 H]]. inversion H; subst; clear H.
    cbn [roomy] in R. rewrite E in R. destruct R as [R1 R2].
    destruct (slot_step _ _ _ _ _ _ _ _ _ P F I S E R1) as [n1 S1].
    destruct (IH _ _ _ _ _ _ P F (inv_step _ _ _ _ _ P I E) S1 R2 E2) as [n2 S2]. exists n2.
    destruct r; [rewrite zlen_cons; match goal with |- slot _ _ _ _ ?b _ => replace b with (a + 1 + zlen r2) by lia end|rewrite Z.add_0_r in S2]; exact S2.
Qed.
(** C31: between an allocation of [x] and the next one there are at least
    (f + 1) * 65536 / (max-connections + 1) - 1 other allocations, where [f] is a lower bound
    of the number of free ids when one is returned (0 in the worst case). *)
Theorem id_reuse : forall m f l open free rs0 x s1 s2 rs s3, permitted m -> 0 <= f -> ireach m (open, free) rs0 ->
  istep m (open, free) IOpen = Ok (s1, Some x) ->
  roomy m f s1 l -> isteps m s1 l = Ok (s2, rs) -> istep m s2 IOpen = Ok (s3, Some x) ->
  (f + 1) * (65536 / (m + 1)) - 1 <= zlen rs.
Proof.
  intros m f l open free rs0 x s1 s2 rs s3 P F [f0 [l0 [I H0]]] A R H B.
  pose proof (inv_steps _ _ _ _ _ P (inv_init _ _ P I) H0) as I0.
  pose proof (inv_step _ _ _ _ _ P I0 A) as I1. pose proof (inv_steps _ _ _ _ _ P I1 H) as I2.
  destruct (permitted_div m P) as [q [Q [E C]]].
  assert (X0 : 0 <= x < 65536 /\ In x (fst s1)).
  { unfold istep in A. destruct free as [|y t]; cbn [get_id] in A; inversion A; subst. split; [|apply in_app_iff; right; left; auto].
    destruct I0 as [_ [I0 _]]. rewrite Forall_forall in I0. apply I0. apply in_app_iff. right. left. auto. }
  destruct X0 as [X0 X1].
  assert (S : slot m f x 0 0 s1). { split; [lia|]. left. replace (x + 0 * (m + 1)) with x by ring. rewrite Z.mod_small by auto. split; [auto|lia]. }
  destruct (slot_steps _ _ _ _ _ _ _ _ _ P F I1 S R H) as [n [N S2]].
  destruct s2 as [o2 f2]. unfold istep in B. destruct f2 as [|y t]; cbn [get_id] in B; inversion B; subst; clear B.
  destruct I2 as [D _]. cbn [fst snd] in *. rewrite map_app in D. destruct (NoDup_app_inv _ _ _ D) as [_ [D1 D2]].
  destruct S2 as [[S1 S2]|[pre [post [S1 S2]]]].
  - exfalso. apply (D2 (low (m + 1) x)); [|left; auto]. rewrite <- (slot_low m x n P). apply in_map. auto.
  - destruct pre as [|z pre].
    + cbn [app] in S1. inversion S1 as [[K1 K2]]. cbn in S2.
      assert (E1 : 65536 / (m + 1) = q) by (rewrite E; apply Z.div_mul; lia). rewrite E1.
      assert (exists k, (n + 1) * (m + 1) = k * (q * (m + 1))) as [k K].
      { exists ((x + (n + 1) * (m + 1)) / 65536). rewrite <- E. pose proof (Z.div_mod (x + (n + 1) * (m + 1)) 65536). lia. }
      assert (n + 1 = k * q) by nia. assert (0 < k) by nia. assert (q <= n + 1) by nia. nia.
    + exfalso. cbn [app] in S1. inversion S1; subst. cbn [map] in D1. inversion D1 as [|? ? Y1 Y2]; subst. apply Y1.
      rewrite <- (slot_low m z (n + 1) P). apply in_map. apply in_app_iff. right. left. auto.
Qed.
Print Assumptions id_reuse.

(** A concrete node with 255 links: three links opened, one closed, one opened. *)
Definition free0 : list Z := fresh_ids 256 1 (repeat 3 255).
Example ids_example : permitted 255 /\ initial 255 free0 /\
  isteps 255 ([], free0) [IOpen; IOpen; IClose 769; IOpen] = Ok (([770; 771], from 3 free0 ++ [1025]), [769; 770; 771]).
Proof.
  split; [exists 8; split; [lia|reflexivity]|]. split; [|vm_compute; reflexivity].
  exists (repeat 3 255). split; [reflexivity|]. split; [|apply Permutation_refl]. apply Forall_forall. intros x X. apply repeat_spec in X. lia.
Qed.
(** The bound is met: with all other links open an id comes back after
    65536 / 256 - 1 other allocations, here one slot cycling alone. *)
Fixpoint cycle (n : nat) (x : Z) : list iop := match n with O => [] | S k => IClose x :: IOpen :: cycle k ((x + 256) mod 65536) end.
Example reuse_example : exists s rs, isteps 255 (from 1 free0, [769]) (IOpen :: cycle 256 769) = Ok (s, rs) /\ zlen rs = 257 /\ hd_error rs = Some 769 /\ last rs 0 = 769 /\
  count_occ Z.eq_dec rs 769 = 2%nat.
Proof. eexists. eexists. split; [vm_compute; reflexivity|]. vm_compute. auto. Qed.
