(** Property C85: the memory log and the packet dump. *)
From Verif Require Import Base AddrModel LogModel.

(** * Specification *)
Definition logged (l : list act) : list rec := flat_map (fun a => match a with ALog r => [r] | _ => [] end) l.
(** [a] is [b] with some left out. *)
Inductive sub : list rec -> list rec -> Prop :=
| sub_nil : sub [] []
| sub_keep x a b : sub a b -> sub (x :: a) (x :: b)
| sub_skip x a b : sub a b -> sub a (x :: b).
Definition important (lim : Z) (r : rec) : Prop := lim <= r_level r \/ r_exc r = true.
(** The last n. *)
Definition lastn (n : nat) (l : list rec) : list rec := rev (firstn n (rev l)).

Lemma sub_refl a : sub a a. Proof. induction a; constructor; assumption. Qed.
Lemma sub_app a b c d : sub a b -> sub c d -> sub (a ++ c) (b ++ d).
Proof. induction 1; cbn [app]; intros; [assumption | constructor; auto | constructor; auto]. Qed.
Lemma sub_drop n a : sub (skipn n a) a.
Proof. revert a. induction n as [| n IH]; intros a; [apply sub_refl |]. destruct a; [constructor |]. cbn [skipn]. constructor. apply IH. Qed.
Lemma sub_none a : sub [] a. Proof. induction a; constructor; assumption. Qed.
Lemma sub_trans a b c : sub a b -> sub b c -> sub a c.
Proof. intros H K. revert a H. induction K; intros z H; [exact H | inversion H; subst; constructor; auto | constructor; auto]. Qed.
Lemma need_spec lim r : flush_needed lim r = true <-> important lim r.
Proof. unfold flush_needed, important. rewrite orb_true_iff, Z.leb_le. reflexivity. Qed.
Lemma lrun_snoc cap lim l a : lrun cap lim (l ++ [a]) = lstep cap lim (lrun cap lim l) a.
Proof. unfold lrun. rewrite fold_left_app. reflexivity. Qed.
Lemma push_last cap b r : push cap b r = lastn cap (b ++ [r]).
Proof. unfold push, lastn. rewrite firstn_rev, rev_involutive. reflexivity. Qed.

(** While the handler is in bypass its buffer is empty. *)
Lemma bypass_empty cap lim l : h_bypass (lrun cap lim l) = true -> h_buf (lrun cap lim l) = [].
Proof.
  induction l as [| a l IH] using rev_ind; [discriminate |]. rewrite lrun_snoc. set (h := lrun cap lim l) in *. destruct a as [r | | b]; cbn [lstep].
  - unfold emit. destruct (h_bypass h); [exact IH |]. destruct (flush_needed lim r); cbn [flush h_bypass h_buf]; discriminate.
  - reflexivity.
  - unfold set_bypass. cbn [h_bypass h_buf]. intros ->. reflexivity.
Qed.
(** The target gets records in the order in which they were logged, each at most as often as
    it was logged; the buffer holds no more than its capacity. *)
Theorem memlog_order cap lim l : let h := lrun cap lim l in sub (h_out h ++ h_buf h) (logged l) /\ (length (h_buf h) <= cap)%nat.
Proof.
  cbv zeta. induction l as [| a l [IH B]] using rev_ind; [split; [constructor | cbn; lia] |].
  pose proof (bypass_empty cap lim l) as BE. rewrite lrun_snoc. unfold logged. rewrite flat_map_app. fold (logged l).
  set (h := lrun cap lim l) in *. destruct a as [r | | b]; cbn [lstep flat_map app]; [| rewrite app_nil_r | rewrite app_nil_r].
  - unfold emit. destruct (h_bypass h).
    + cbn [h_out h_buf]. rewrite (BE eq_refl) in *. split; [| exact B]. rewrite app_nil_r in *. apply sub_app; [exact IH | apply sub_refl].
    + assert (P : sub (h_out h ++ push cap (h_buf h) r) (logged l ++ [r])).
      { apply sub_trans with (h_out h ++ h_buf h ++ [r]); [apply sub_app; [apply sub_refl | unfold push; apply sub_drop] |].
        rewrite app_assoc. apply sub_app; [exact IH | apply sub_refl]. }
      destruct (flush_needed lim r); cbn [flush h_out h_buf]; [rewrite app_nil_r; split; [exact P | cbn; lia] |]. split; [exact P |].
      unfold push. rewrite skipn_length. lia.
  - cbn [flush h_out h_buf]. rewrite app_nil_r. split; [exact IH | cbn; lia].
  - cbn [set_bypass h_out h_buf]. destruct b; [rewrite app_nil_r | split; assumption]. split; [| cbn; lia].
    apply sub_trans with (h_out h ++ h_buf h); [| exact IH]. rewrite <- (app_nil_r (h_out h)) at 1. apply sub_app; [apply sub_refl | apply sub_none].
Qed.
Print Assumptions memlog_order.

Lemma keep cap lim rs : Forall (fun r => ~ important lim r) rs -> forall h, h_bypass h = false -> (length (h_buf h) <= cap)%nat ->
  fold_left (lstep cap lim) (map ALog rs) h = mkH (lastn cap (h_buf h ++ rs)) false (h_out h).
Proof.
  induction rs as [| r rs IH]; intros F h B L; cbn [map fold_left].
  - rewrite app_nil_r. unfold lastn. rewrite firstn_all2, rev_involutive by (rewrite rev_length; lia). destruct h. cbn in *. subst. reflexivity.
  - inversion F as [| x y R F']; subst. cbn [lstep]. unfold emit. rewrite B.
    destruct (flush_needed lim r) eqn:N; [apply need_spec in N; contradiction |]. rewrite IH; [| exact F' | reflexivity | cbn [h_buf]; unfold push; rewrite skipn_length; lia].
    cbn [h_buf h_out]. f_equal. rewrite push_last. unfold lastn.
    rewrite (rev_app_distr (h_buf h) (r :: rs)), (rev_app_distr (rev _) rs), rev_involutive. f_equal. cbn [rev]. rewrite rev_app_distr. cbn [rev app].
    rewrite <- app_assoc. cbn [app]. rewrite !firstn_app. f_equal.
    rewrite firstn_firstn. f_equal. lia.
Qed.
(** An important record, or a flush, writes the last records before it, as many as the
    capacity allows, that have been logged since the buffer was last empty. *)
Theorem memlog_history cap lim l rs r : h_bypass (lrun cap lim l) = false -> h_buf (lrun cap lim l) = [] ->
  Forall (fun r => ~ important lim r) rs -> important lim r ->
  let h := lrun cap lim (l ++ map ALog rs ++ [ALog r]) in
  h_out h = h_out (lrun cap lim l) ++ lastn cap (rs ++ [r]) /\ h_buf h = [] /\
  h_out (lrun cap lim (l ++ map ALog rs)) = h_out (lrun cap lim l) /\
  h_out (lrun cap lim (l ++ map ALog rs ++ [AFlush])) = h_out (lrun cap lim l) ++ lastn cap rs.
Proof.
  intros B E F I. cbv zeta. rewrite !app_assoc. rewrite !lrun_snoc. set (h := lrun cap lim l) in *.
  assert (K : lrun cap lim (l ++ map ALog rs) = mkH (lastn cap rs) false (h_out h)).
  { unfold lrun. rewrite fold_left_app. fold (lrun cap lim l). fold h. rewrite keep by (try assumption; rewrite E; cbn; lia). rewrite E. reflexivity. }
  rewrite K. cbn [lstep]. unfold emit. cbn [h_bypass h_buf h_out]. rewrite (proj2 (need_spec lim r) I). cbn [flush h_out h_buf].
  split; [| repeat split]. f_equal. rewrite push_last. unfold lastn. rewrite !rev_app_distr, rev_involutive. f_equal. cbn [rev app].
  destruct cap as [| c]; [reflexivity |]. rewrite !firstn_cons. f_equal. rewrite firstn_firstn. f_equal. lia.
Qed.
Print Assumptions memlog_history.
(** With a capacity an important record is always written at once. *)
Theorem memlog_important cap lim l r : (1 <= cap)%nat -> important lim r \/ h_bypass (lrun cap lim l) = true ->
  exists w, h_out (lrun cap lim (l ++ [ALog r])) = h_out (lrun cap lim l) ++ w ++ [r] /\ h_buf (lrun cap lim (l ++ [ALog r])) = [].
Proof.
  intros C I. pose proof (bypass_empty cap lim l) as BE. rewrite lrun_snoc. set (h := lrun cap lim l) in *. cbn [lstep]. unfold emit. destruct (h_bypass h).
  - exists []. cbn [h_out h_buf app]. auto.
  - destruct I as [I | I]; [| discriminate I]. rewrite (proj2 (need_spec lim r) I). cbn [flush h_out h_buf].
    exists (skipn (length (h_buf h ++ [r]) - cap) (h_buf h)). split; [| reflexivity]. f_equal. unfold push. rewrite skipn_app.
    replace (length (h_buf h ++ [r]) - cap - length (h_buf h))%nat with O by (rewrite app_length; cbn [length]; lia). reflexivity.
Qed.
Print Assumptions memlog_important.
(** It is not so without: with capacity 0 nothing is written but in bypass. *)
Theorem memlog_zero_refuted lim l : Forall (fun a => a <> ABypass true) l -> h_out (lrun 0 lim l) = [].
Proof.
  intros F. assert (G : h_out (lrun 0 lim l) = [] /\ h_bypass (lrun 0 lim l) = false); [| exact (proj1 G)].
  pose proof (fun l => proj2 (memlog_order 0 lim l)) as Z0. cbv zeta in Z0.
  induction l as [| a l IH] using rev_ind; [split; reflexivity |]. apply Forall_app in F as [F Fa]. destruct (IH F) as [O B]. specialize (Z0 l).
  rewrite lrun_snoc. set (h := lrun 0 lim l) in *. assert (E : h_buf h = []) by (destruct (h_buf h); [reflexivity | cbn in Z0; lia]).
  destruct a as [r | | b]; cbn [lstep].
  - unfold emit. rewrite B, E. destruct (flush_needed lim r); cbn [flush h_out h_buf h_bypass]; rewrite O; split; reflexivity.
  - cbn [flush h_out h_bypass]. rewrite O, E. auto.
  - inversion Fa as [| x y X]; subst. destruct b; [destruct (X eq_refl) |]. cbn [set_bypass h_out h_bypass]. auto.
Qed.
Print Assumptions memlog_zero_refuted.
(** At shutdown (stop, 353-356) the handler is put in bypass: what is in the buffer is thrown
    away, and what is logged then is all written. *)
Theorem memlog_bypass cap lim l rs : h_out (lrun cap lim (l ++ ABypass true :: map ALog rs)) = h_out (lrun cap lim l) ++ rs.
Proof.
  unfold lrun. rewrite fold_left_app. fold (lrun cap lim l). cbn [fold_left lstep]. set (h := set_bypass _ _).
  replace (h_out (lrun cap lim l)) with (h_out h) by reflexivity. assert (B : h_bypass h = true) by reflexivity. clearbody h. revert h B.
  induction rs as [| r rs IH]; intros h B; cbn [map fold_left]; [rewrite app_nil_r; reflexivity |].
  rewrite IH; cbn [lstep]; unfold emit; rewrite B; [| reflexivity]. cbn [h_out]. rewrite <- app_assoc. reflexivity.
Qed.
Print Assumptions memlog_bypass.

(** * The dump *)
(** A reader of a line: the number before the slash is the offset, the bytes are in columns
    of two digits, with one blank between and one more in the middle; the characters after
    them tell how many. *)
Definition hv (c : Z) : Z := if c <? 58 then c - 48 else c - 87.
Fixpoint upto_slash (s : list Z) : list Z * list Z :=
  match s with [] => ([], []) | c :: t => if c =? 47 then ([], t) else let (a, b) := upto_slash t in (c :: a, b) end.
Definition number (s : list Z) : Z := fold_left (fun a c => a * 16 + hv c) s 0.
Definition read_byte (body : list Z) (o : nat) : Z :=
  let at_ := (3 * o + if (8 <=? o)%nat then 1 else 0)%nat in
  16 * hv (nth at_ body 0) + hv (nth (S at_) body 0).
Definition read_line (s : list Z) : Z * list Z :=
  let (a, b) := upto_slash s in
  let body := skipn 1 b in
  (number a, map (read_byte body) (seq 0 (length (skipn 49 body)))).

Lemma hv_hexd d : 0 <= d < 16 -> hv (hexd d) = d /\ hexd d <> 47.
Proof. intros H. unfold hv, hexd. destruct (Z.ltb_spec d 10); match goal with |- context [?a <? 58] => destruct (Z.ltb_spec a 58) end; lia. Qed.
Lemma hex_loop_spec : forall fuel v acc, 0 <= v < 2 ^ Z.of_nat fuel -> Forall (fun c => c <> 47) acc ->
  exists d, hex_loop fuel v acc = d ++ acc /\ Forall (fun c => c <> 47) d /\ number d = v.
Proof.
  induction fuel as [| f IH]; intros v acc H A.
  - exists []. cbn in *. split; [reflexivity |]. split; [constructor |]. lia.
  - cbn [hex_loop]. destruct (Z.eqb_spec v 0) as [-> | N]; [exists []; repeat split; constructor |].
    rewrite Nat2Z.inj_succ, Z.pow_succ_r in H by lia. assert (D : 0 <= v mod 16 < 16) by (apply Z.mod_pos_bound; lia).
    destruct (IH (v / 16) (hexd (v mod 16) :: acc)) as (d & E & F & M); [split; [apply Z.div_pos; lia | Z.div_mod_to_equations; lia] | constructor; [apply hv_hexd; exact D | exact A] |].
    exists (d ++ [hexd (v mod 16)]). rewrite E, <- app_assoc. split; [reflexivity |]. split; [apply Forall_app; split; [exact F | constructor; [apply hv_hexd; exact D | constructor]] |].
    unfold number in *. rewrite fold_left_app. cbn [fold_left]. rewrite M, (proj1 (hv_hexd _ D)). pose proof (Z.div_mod v 16). lia.
Qed.
Lemma hex4_spec v : 0 <= v -> Forall (fun c => c <> 47) (hex4 v) /\ number (hex4 v) = v.
Proof.
  intros H. unfold hex4. destruct (hex_loop_spec (S (Z.to_nat (Z.log2 v))) v []) as (d & E & F & M); [| constructor |].
  - rewrite Nat2Z.inj_succ, Z2Nat.id by apply Z.log2_nonneg. destruct (Z.eq_dec v 0) as [-> | N]; [cbn; lia |]. pose proof (Z.log2_spec v ltac:(lia)). lia.
  - rewrite E, app_nil_r. cbv zeta. generalize (4 - length d)%nat as n. intros n. split.
    + apply Forall_app. split; [| exact F]. apply Forall_forall. intros c I. apply repeat_spec in I. subst c. discriminate.
    + induction n as [| n IH]; [exact M |]. cbn [repeat app]. unfold number in *. cbn [fold_left]. exact IH.
Qed.
Lemma slash_app a b : Forall (fun c => c <> 47) a -> upto_slash (a ++ 47 :: b) = (a, b).
Proof. induction 1 as [| c a N F IH]; [reflexivity |]. cbn [app upto_slash]. destruct (Z.eqb_spec c 47); [contradiction |]. rewrite IH. reflexivity. Qed.
Lemma chars_len pr p ln : length (chars pr p ln) = length (firstn 16 (skipn ln p)).
Proof.
  assert (G : forall n k (q : list Z), length (flat_map (fun o => match nth_error q (k + o) with Some b => [if pr b then b else 46] | None => [] end) (seq 0 n)) = length (firstn n (skipn k q))).
  { induction n as [| n IH]; intros k q; [reflexivity |]. cbn [seq flat_map]. rewrite app_length, <- seq_shift, flat_map_concat_map, map_map, <- flat_map_concat_map.
    rewrite (flat_map_ext _ (fun o => match nth_error q (S k + o) with Some b => [if pr b then b else 46] | None => [] end)) by (intros o; rewrite Nat.add_succ_r; reflexivity).
    rewrite IH, Nat.add_0_r. destruct (nth_error q k) as [b |] eqn:E.
    - apply nth_error_split in E as (x & y & -> & <-).
      assert (T1 : skipn (S (length x)) (x ++ b :: y) = y) by (clear; induction x as [| c x IH]; [reflexivity | exact IH]).
      assert (T2 : skipn (length x) (x ++ b :: y) = b :: y) by (clear; induction x as [| c x IH]; [reflexivity | exact IH]).
      rewrite T1, T2. reflexivity.
    - apply nth_error_None in E. rewrite !skipn_all2 by lia. rewrite !firstn_nil. reflexivity. }
  apply G.
Qed.
(** A line of the dump tells its offset and the 16 bytes from there (or those that are left). *)
Theorem dump_line_read pr p k : bytes_ok p -> read_line (dump_line pr p k) = (Z.of_nat k, firstn 16 (skipn k p)).
Proof.
  intros B. unfold read_line, dump_line. destruct (hex4_spec (Z.of_nat k)) as [F N]; [lia |].
  cbn [app]. rewrite (slash_app _ _ F), N. f_equal.
  change (skipn 1 (32 :: join 32 (cols p k) ++ 32 :: chars pr p k)) with (join 32 (cols p k) ++ 32 :: chars pr p k).
  assert (L : skipn 49 (join 32 (cols p k) ++ 32 :: chars pr p k) = chars pr p k) by reflexivity. rewrite L, chars_len.
  assert (R : forall o, (o < 16)%nat -> read_byte (join 32 (cols p k) ++ 32 :: chars pr p k) o = 16 * hv (col_hi p (k + o)) + hv (col_lo p (k + o))).
  { intros o O. do 16 (destruct o as [| o]; [reflexivity |]). lia. }
  apply nth_ext with (d := 0) (d' := 0); [rewrite map_length, seq_length; reflexivity |].
  intros o O. rewrite map_length, seq_length in O. assert (O16 : (o < 16)%nat) by (rewrite firstn_length in O; lia).
  rewrite (nth_indep _ 0 (read_byte (join 32 (cols p k) ++ 32 :: chars pr p k) 0)) by (rewrite map_length, seq_length; exact O).
  rewrite map_nth, seq_nth by exact O. cbn [plus]. rewrite R by exact O16.
  assert (E : nth_error p (k + o) = Some (nth o (firstn 16 (skipn k p)) 0)).
  { assert (O' := O). rewrite firstn_length, skipn_length in O'. rewrite (nth_error_nth' p 0) by lia. f_equal.
    transitivity (nth o (skipn k p) 0).
    - rewrite <- (firstn_skipn k p) at 1. rewrite app_nth2; rewrite firstn_length; [f_equal; lia | lia].
    - rewrite <- (firstn_skipn 16 (skipn k p)) at 1. rewrite app_nth1 by exact O. reflexivity. }
  unfold col_hi, col_lo. rewrite E. set (b := nth o _ 0). assert (BB : byte_ok b).
  { unfold bytes_ok in B. rewrite Forall_forall in B. apply B. apply nth_error_In in E. exact E. }
  unfold byte_ok in BB. rewrite (proj1 (hv_hexd (b / 16) ltac:(Z.div_mod_to_equations; lia))), (proj1 (hv_hexd (b mod 16) ltac:(Z.div_mod_to_equations; lia))).
  pose proof (Z.div_mod b 16). lia.
Qed.
Print Assumptions dump_line_read.
(** The lines together tell the packet. *)
Theorem dump_read pr p : bytes_ok p -> flat_map (fun s => snd (read_line s)) (dump pr p) = p.
Proof.
  intros B. unfold dump. rewrite flat_map_concat_map, map_map. rewrite (map_ext _ (fun k => firstn 16 (skipn (16 * k) p))) by (intros k; rewrite dump_line_read by exact B; reflexivity).
  assert (SS : forall a b (q : list Z), skipn a (skipn b q) = skipn (a + b) q).
  { intros a b. revert a. induction b as [| b IH]; intros a q; [rewrite Nat.add_0_r; reflexivity |]. rewrite Nat.add_succ_r. destruct q as [| c q]; [rewrite !skipn_nil; reflexivity | apply IH]. }
  assert (G : forall n (q : list Z), (length q <= 16 * n)%nat -> concat (map (fun k => firstn 16 (skipn (16 * k) q)) (seq 0 n)) = q).
  { induction n as [| n IH]; intros q L; [destruct q; [reflexivity | cbn in L; lia] |]. cbn [seq map concat]. rewrite <- seq_shift, map_map.
    rewrite (map_ext _ (fun k => firstn 16 (skipn (16 * k) (skipn 16 q)))) by (intros k; f_equal; rewrite SS; f_equal; lia).
    rewrite IH by (rewrite skipn_length; lia). apply firstn_skipn. }
  apply G. pose proof (Nat.div_mod (length p + 15) 16 ltac:(lia)). pose proof (Nat.mod_upper_bound (length p + 15) 16 ltac:(lia)). lia.
Qed.
Print Assumptions dump_read.

(** There is no line without bytes. *)
Theorem dump_lines pr p : bytes_ok p -> Forall (fun s => snd (read_line s) <> []) (dump pr p).
Proof.
  intros B. unfold dump. apply Forall_forall. intros s I. apply in_map_iff in I as (k & <- & I). apply in_seq in I. rewrite dump_line_read by exact B. cbn [snd].
  pose proof (Nat.div_mod (length p + 15) 16 ltac:(lia)). pose proof (Nat.mod_upper_bound (length p + 15) 16 ltac:(lia)).
  intros E. apply (f_equal (@length Z)) in E. rewrite firstn_length, skipn_length in E. cbn [length] in E. lia.
Qed.
Print Assumptions dump_lines.

Definition r1 : rec := mkRec 1 9 false. Definition r2 : rec := mkRec 2 9 false. Definition r3 : rec := mkRec 3 9 false. Definition r4 : rec := mkRec 4 30 false.
Example memlog_ex : h_out (lrun 3 30 (map ALog [r1; r2; r3; r4; r1; r2])) = [r2; r3; r4] /\ h_buf (lrun 3 30 (map ALog [r1; r2; r3; r4; r1; r2])) = [r1; r2]
  /\ ~ important 30 r1 /\ important 30 r4.
Proof. repeat split; try reflexivity; unfold important; cbn; [intros [H | H]; [lia | discriminate H] | lia]. Qed.
Example dump_ex : dump (fun c => (32 <=? c) && (c <? 127)) [72; 105; 0; 255] = [[48; 48; 48; 48; 47; 32; 52; 56; 32; 54; 57; 32; 48; 48; 32; 102; 102; 32] ++ repeat 32 37 ++ [72; 105; 46; 46]].
Proof. vm_compute. reflexivity. Qed.
