(** Properties C49 and C50: the event queue, event lists and filters. *)
From Verif Require Import Base Dict AddrModel AddrProps EventModel.

(** *** C50: specification of event lists *)
(** The text of one item, with its class (if given) and range. *)
Definition class_text (c : option Z) (s : list Z) : Prop :=
  match c with
  | None => s = []
  | Some v => exists d, number d /\ s = d ++ [46] /\ dval d = v
  end.
Inductive body_text : Z -> Z -> list Z -> Prop :=
| BOne : forall d, number d -> body_text (dval d) (dval d) d
| BRange : forall d1 d2, number d1 -> number d2 -> dval d1 < dval d2 -> body_text (dval d1) (dval d2) (d1 ++ [45] ++ d2)
| BStar : body_text 0 31 [42].
Definition item_text (c : option Z) (lo hi : Z) (s : list Z) : Prop :=
  exists a b nl, class_text c a /\ body_text lo hi b /\ maybe_newline nl /\ s = a ++ b ++ nl.
(** A list of items: a class carries over to the following items. *)
Inductive items : option Z -> list (list Z) -> list (Z * Z * Z) -> Prop :=
| INil : forall cur, items cur [] []
| ICons : forall cur s l c cl lo hi rs,
    item_text c lo hi s -> (c = Some cl \/ c = None /\ cur = Some cl) -> (c <> None -> cl < 512) -> hi <= 31 ->
    items (Some cl) l rs -> items cur (s :: l) ((cl, lo, hi) :: rs).
Definition denotes (rs : list (Z * Z * Z)) (c e : Z) : Prop := exists lo hi, In (c, lo, hi) rs /\ lo <= e <= hi.
(** Comma separated text. *)
Fixpoint join_comma (l : list (list Z)) : list Z :=
  match l with [] => [] | [x] => x | x :: t => x ++ [44] ++ join_comma t end.

Lemma split_comma_spec : forall s, join_comma (split_comma s) = s /\ split_comma s <> [] /\
  Forall (fun x => ~ In 44 x) (split_comma s).
Proof.
  induction s as [|c s (J & N & F)]; cbn [split_comma].
  - split; [reflexivity|]. split; [discriminate|]. constructor; auto.
  - destruct (split_comma s) as [|x r] eqn:E; [contradiction|]. destruct (Z.eqb_spec c 44) as [->|D].
    + split; [change (join_comma ([] :: x :: r)) with (44 :: join_comma (x :: r)); rewrite J; reflexivity|]. split; [discriminate|]. constructor; auto.
    + inversion F; subst. split; [|split; [discriminate|]].
      * destruct r; [reflexivity|]. change (c :: join_comma (x :: l :: r) = c :: join_comma (x :: l :: r)). reflexivity.
      * constructor; auto. intros [X|X]; auto.
Qed.
Theorem split_comma_unique : forall l, l <> [] -> Forall (fun x => ~ In 44 x) l -> split_comma (join_comma l) = l.
Proof.
  assert (A : forall x s, ~ In 44 x -> split_comma (x ++ 44 :: s) = x :: split_comma s).
  { induction x as [|c x IH]; intros s H; cbn [app split_comma]; auto.
    destruct (Z.eqb_spec c 44) as [->|]; [exfalso; apply H; left; auto|]. rewrite IH; auto. intros X. apply H. right. auto. }
  assert (B : forall x, ~ In 44 x -> split_comma x = [x]).
  { induction x as [|c x IH]; intros H; cbn [split_comma]; auto.
    destruct (Z.eqb_spec c 44) as [->|]; [exfalso; apply H; left; auto|]. rewrite IH; auto. intros X. apply H. right. auto. }
  induction l as [|x l IH]; intros N F; [contradiction|]. inversion F; subst. destruct l as [|y l].
  - cbn [join_comma]. apply B. auto.
  - change (join_comma (x :: y :: l)) with (x ++ 44 :: join_comma (y :: l)). rewrite A by auto. f_equal. apply IH; auto. discriminate.
Qed.

Lemma digit_not : forall c, ~ digit c -> is_digit c = false.
Proof. intros c H. destruct (is_digit c) eqn:E; auto. apply is_digit_spec in E. contradiction. Qed.
Lemma hd_cases : forall (r : list Z) v, (exists t, r = v :: t) \/ hd_error r <> Some v.
Proof.
  intros [|c r] v; [right; discriminate|]. destruct (Z.eq_dec c v) as [->|]; [left; eauto|right]. cbn. congruence.
Qed.

Lemma evt_body_one : forall d nl, number d -> maybe_newline nl -> evt_body (d ++ nl) = Some (Some d, None).
Proof.
  intros d nl [N F] M. unfold evt_body. rewrite span_digits_app by (auto; intros; eapply newline_head; eauto).
  destruct d as [|c d]; [contradiction|]. destruct M as [->| ->]; reflexivity.
Qed.
Lemma evt_body_range : forall d1 d2 nl, number d1 -> number d2 -> maybe_newline nl ->
  evt_body ((d1 ++ [45] ++ d2) ++ nl) = Some (Some d1, Some d2).
Proof.
  intros d1 d2 nl [N1 F1] [N2 F2] M. unfold evt_body. rewrite <- !app_assoc.
  rewrite span_digits_app; auto; [|intros c E; cbn in E; injection E as <-; unfold digit; lia].
  destruct d1 as [|c d1]; [contradiction|]. cbn [app].
  rewrite span_digits_app by (auto; intros; eapply newline_head; eauto). destruct d2; [contradiction|].
  rewrite (proj2 (at_end_spec nl)) by auto. reflexivity.
Qed.
Lemma evt_body_star : forall nl, maybe_newline nl -> evt_body ([42] ++ nl) = Some (None, None).
Proof. intros nl [->| ->]; reflexivity. Qed.
Lemma evt_body_inv : forall s a b, evt_body s = Some (a, b) -> exists nl, maybe_newline nl /\
  ((exists d, a = Some d /\ b = None /\ number d /\ s = d ++ nl) \/
   (exists d1 d2, a = Some d1 /\ b = Some d2 /\ number d1 /\ number d2 /\ s = (d1 ++ [45] ++ d2) ++ nl) \/
   (a = None /\ b = None /\ s = [42] ++ nl)).
Proof.
  intros s a b H. unfold evt_body in H. destruct (span_digits s) as [d r] eqn:S. apply span_digits_inv in S as [-> F].
  destruct d as [|c d].
  - destruct (hd_cases r 42) as [(t & ->)|N].
    + destruct (at_end t) eqn:A; [|discriminate]. injection H as <- <-. apply at_end_spec in A. exists t. auto 10.
    + exfalso. destruct r as [|x r]; [discriminate|]. cbn in N. destruct x as [|p|p]; try discriminate H.
      do 6 (destruct p as [p|p|]; try discriminate H; try (apply N; reflexivity)).
  - assert (NB : number (c :: d)) by (split; auto; discriminate). destruct (hd_cases r 45) as [(t & ->)|N].
    + destruct (span_digits t) as [d2 r2] eqn:S2. apply span_digits_inv in S2 as [-> F2].
      destruct d2 as [|c2 d2]; [discriminate|]. destruct (at_end r2) eqn:A; [|discriminate]. injection H as <- <-.
      apply at_end_spec in A. exists r2. split; auto. right. left. do 2 eexists. split; [reflexivity|]. split; [reflexivity|].
      split; auto. split; [split; auto; discriminate|]. rewrite <- !app_assoc. reflexivity.
    + assert (H' : (if at_end r then Some (Some (c :: d), @None (list Z)) else None) = Some (a, b)).
      { destruct r as [|x r]; [exact H|]. cbn in N. destruct x as [|p|p]; try exact H.
        do 6 (destruct p as [p|p|]; try exact H; try (exfalso; apply N; reflexivity)). }
      destruct (at_end r) eqn:A; [|discriminate]. injection H' as <- <-. apply at_end_spec in A. exists r. split; auto. left. eauto 10.
Qed.
(** Bodies do not look like a class. *)
Lemma body_no_class : forall lo hi b nl, body_text lo hi b -> maybe_newline nl ->
  evt_re (b ++ nl) = match evt_body (b ++ nl) with Some (a, b) => Some (None, a, b) | None => None end.
Proof.
  intros lo hi b nl B M. unfold evt_re. destruct B as [d [N F]|d1 d2 [N1 F1] _ _|].
  - rewrite span_digits_app by (auto; intros; eapply newline_head; eauto).
    destruct d as [|c d]; [contradiction|]. destruct M as [->| ->]; reflexivity.
  - rewrite <- !app_assoc. rewrite span_digits_app; auto; [|intros c E; cbn in E; injection E as <-; unfold digit; lia].
    destruct d1 as [|c d1]; [contradiction|]. reflexivity.
  - reflexivity.
Qed.
Lemma evt_re_class : forall d s, number d ->
  evt_re (d ++ [46] ++ s) = match evt_body s with Some (a, b) => Some (Some d, a, b) | None => None end.
Proof.
  intros d s [N F]. unfold evt_re. rewrite span_digits_app; auto; [|intros c E; cbn in E; injection E as <-; unfold digit; lia].
  destruct d; [contradiction|]. reflexivity.
Qed.
Lemma evt_re_inv : forall s c a b, evt_re s = Some (c, a, b) ->
  exists p t, s = p ++ t /\ evt_body t = Some (a, b) /\
    match c with None => p = [] | Some d => number d /\ p = d ++ [46] end.
Proof.
  intros s c a b H. unfold evt_re in H. destruct (span_digits s) as [d r] eqn:S. pose proof S as S'.
  apply span_digits_inv in S as [E F].
  assert (G : match evt_body s with Some (x, y) => Some (@None (list Z), x, y) | None => None end = Some (c, a, b) ->
    exists p t, s = p ++ t /\ evt_body t = Some (a, b) /\
    match c with None => p = [] | Some d => number d /\ p = d ++ [46] end).
  { intros X. destruct (evt_body s) as [[x y]|] eqn:B; [|discriminate]. injection X as <- <- <-. exists [], s. auto. }
  destruct d as [|x d]; [apply G; exact H|]. destruct (hd_cases r 46) as [(t & ->)|N].
  - destruct (evt_body t) as [[u v]|] eqn:B; [|discriminate]. injection H as <- <- <-.
    exists ((x :: d) ++ [46]), t. split; [rewrite E, <- app_assoc; reflexivity|]. split; auto. split; auto. split; auto. discriminate.
  - apply G. destruct r as [|y r]; [exact H|]. cbn in N. destruct y as [|p|p]; try exact H.
    do 6 (destruct p as [p|p|]; try exact H; try (exfalso; apply N; reflexivity)).
Qed.
Lemma zrange_in : forall a b x, In x (zrange a b) <-> a <= x <= b.
Proof.
  intros. unfold zrange. rewrite in_map_iff. split.
  - intros (i & <- & H). apply in_seq in H. lia.
  - intros H. exists (Z.to_nat (x - a)). split; [lia|]. apply in_seq. lia.
Qed.

Lemma parse_items_ok : forall l cur ev, parse_items cur l = Ok ev ->
  exists rs, items cur l rs /\ forall c e, In (c, e) ev <-> denotes rs c e.
Proof.
  induction l as [|s l IH]; intros cur ev H; cbn [parse_items] in H.
  - injection H as <-. exists []. split; [constructor|]. intros c e. split; [intros []|intros (lo & hi & [] & _)].
  - destruct (evt_re s) as [[[c a] b]|] eqn:R; [|discriminate]. apply evt_re_inv in R as (p & t & -> & B & CP).
    apply evt_body_inv in B as (nl & M & B).
    set (clr := match c with Some c0 => _ | None => _ end) in H. destruct clr as [cl|] eqn:CL; [|discriminate]. cbn [bind] in H.
    set (rgr := match a with Some d1 => _ | None => _ end) in H. destruct rgr as [[lo hi]|] eqn:RG; [|discriminate]. cbn [bind] in H.
    destruct (parse_items (Some cl) l) as [r|] eqn:P; [|discriminate]. cbn [bind] in H. injection H as <-.
    destruct (IH _ _ P) as (rs & I & D). exists ((cl, lo, hi) :: rs). split.
    + apply (ICons cur (p ++ t) l (match c with Some d => Some (dval d) | None => None end) cl lo hi rs); auto.
      * destruct B as [(d & -> & -> & Nd & ->)|[(d1 & d2 & -> & -> & N1 & N2 & ->)|(-> & -> & ->)]]; unfold rgr in RG; cbv zeta in RG; cbn [bind] in RG.
        -- rewrite int10_dval in RG. destruct ((dval d <? 0) || (31 <? dval d)); [discriminate|]. injection RG as <- <-.
           exists p, d, nl. split; [destruct c; cbn [class_text]; [destruct CP as [? ->]; eauto|auto]|]. split; [constructor; auto|auto].
        -- rewrite !int10_dval in RG. destruct (Z.leb_spec (dval d2) (dval d1)); [discriminate|]. cbn [bind] in RG.
           destruct ((dval d1 <? 0) || (31 <? dval d2)); [discriminate|]. injection RG as <- <-.
           exists p, (d1 ++ [45] ++ d2), nl. split; [destruct c; cbn [class_text]; [destruct CP as [? ->]; eauto|auto]|].
           split; [constructor; auto|auto].
        -- injection RG as <- <-. exists p, [42], nl. split; [destruct c; cbn [class_text]; [destruct CP as [? ->]; eauto|auto]|].
           split; [constructor|auto].
      * unfold clr in CL. destruct c as [d|]; cbv zeta in CL.
        -- rewrite int10_dval in CL. destruct ((0 <=? dval d) && (dval d <? 512)); [|discriminate]. injection CL as <-. auto.
        -- destruct cur as [z|]; [injection CL as <-; auto|discriminate].
      * intros NC. unfold clr in CL. destruct c as [d|]; [|contradiction]. cbv zeta in CL. rewrite int10_dval in CL.
        destruct (Z.leb_spec 0 (dval d)); destruct (Z.ltb_spec (dval d) 512); try discriminate CL. cbn in CL. injection CL as <-. auto.
      * unfold rgr in RG. destruct a as [d1|]; [|injection RG as <- <-; lia].
        set (e2 := match b with Some d2 => _ | None => _ end) in RG. destruct e2 as [x|]; [|discriminate]. cbn [bind] in RG.
        destruct (Z.ltb_spec (int10 d1) 0); [discriminate|]. destruct (Z.ltb_spec 31 x); [discriminate|]. cbn [orb] in RG.
        injection RG as <- <-. auto.
    + intros c0 e. rewrite in_app_iff, in_map_iff, D. split.
      * intros [(x & X & Hx)|(lo' & hi' & Hin & Hr)].
        -- injection X as <- <-. apply zrange_in in Hx. exists lo, hi. split; auto. left. auto.
        -- exists lo', hi'. split; auto. right. auto.
      * intros (lo' & hi' & [X|Hin] & Hr).
        -- injection X as <- <- <-. left. exists e. split; auto. apply zrange_in. auto.
        -- right. exists lo', hi'. auto.
Qed.
Lemma items_parse : forall cur l rs, items cur l rs -> exists ev, parse_items cur l = Ok ev.
Proof.
  induction 1 as [cur|cur s l c cl lo hi rs (a & b & nl & CT & BT & M & ->) CC LT HI IT (ev & IH)].
  - exists []. reflexivity.
  - cbn [parse_items].
    assert (R : evt_re (a ++ b ++ nl) = match evt_body (b ++ nl) with
       | Some (x, y) => Some (match c with None => None | Some _ => Some (removelast a) end, x, y) | None => None end
       /\ match c with None => True | Some v => number (removelast a) /\ dval (removelast a) = v end).
    { destruct c as [v|]; cbn [class_text] in CT.
      - destruct CT as (d & Nd & -> & V). rewrite removelast_last. rewrite <- !app_assoc. rewrite evt_re_class; auto.
      - subst a. cbn [app]. split; auto. eapply body_no_class; eauto. }
    destruct R as [-> RC].
    assert (E : exists x y, evt_body (b ++ nl) = Some (x, y) /\
      (match x with
       | None => Ok (0, 31)
       | Some d1 => let e1 := int10 d1 in
           let* e2 := (match y with Some d2 => let e2 := int10 d2 in if e2 <=? e1 then Err EValue else Ok e2 | None => Ok e1 end) in
           if (e1 <? 0) || (31 <? e2) then Err ERange else Ok (e1, e2) end) = Ok (lo, hi)).
    { destruct BT as [d N|d1 d2 N1 N2 L|].
      - exists (Some d), None. rewrite evt_body_one by auto. split; auto. rewrite int10_dval. cbv zeta. cbn [bind].
        pose proof (dval_nonneg d (proj2 N)).
        destruct (Z.ltb_spec (dval d) 0); [lia|]. destruct (Z.ltb_spec 31 (dval d)); [lia|]. reflexivity.
      - exists (Some d1), (Some d2). rewrite evt_body_range by auto. split; auto. rewrite !int10_dval. cbv zeta.
        pose proof (dval_nonneg d1 (proj2 N1)).
        destruct (Z.leb_spec (dval d2) (dval d1)); [lia|]. cbn [bind].
        destruct (Z.ltb_spec (dval d1) 0); [lia|]. destruct (Z.ltb_spec 31 (dval d2)); [lia|]. reflexivity.
      - exists None, None. rewrite evt_body_star by auto. auto. }
    destruct E as (x & y & EB & ER). rewrite EB. cbv iota beta.
    assert (C : (match match c with None => None | Some _ => Some (removelast a) end with
                 | Some c0 => let v := int10 c0 in if (0 <=? v) && (v <? 512) then Ok v else Err ERange
                 | None => match cur with None => Err EValue | Some cl0 => Ok cl0 end end) = Ok cl).
    { destruct CC as [->|[-> ->]]; [|reflexivity]. destruct RC as [N V]. cbv zeta. rewrite int10_dval.
      pose proof (dval_nonneg _ (proj2 N)). specialize (LT ltac:(discriminate)). rewrite V in *.
      destruct (Z.leb_spec 0 cl); [|lia]. destruct (Z.ltb_spec cl 512); [|lia]. reflexivity. }
    match goal with |- context [bind ?X _] => replace X with (Ok cl) by (symmetry; exact C) end. cbn [bind].
    match goal with |- context [bind ?X _] => replace X with (Ok (lo, hi)) by (symmetry; exact ER) end. cbn [bind]. rewrite IH. cbn [bind]. eauto.
Qed.
(** An event list is accepted iff it is a comma separated list of items of the
    documented forms within range, and then denotes exactly their events. *)
Theorem parse_events_correct : forall known s ev, s <> [42; 46; 42] ->
  parse_events known s = Ok ev ->
  exists rs, items None (split_comma s) rs /\ forall c e, In (c, e) ev <-> denotes rs c e.
Proof.
  intros known s ev N H. unfold parse_events in H. destruct (leqb s [42; 46; 42]) eqn:E; [apply leqb_eq in E; contradiction|].
  apply parse_items_ok. exact H.
Qed.
Print Assumptions parse_events_correct.
Theorem parse_events_accepts : forall known texts rs, texts <> [] -> Forall (fun x => ~ In 44 x) texts ->
  items None texts rs -> join_comma texts <> [42; 46; 42] ->
  exists ev, parse_events known (join_comma texts) = Ok ev /\
    forall rs', items None texts rs' -> forall c e, In (c, e) ev <-> denotes rs' c e.
Proof.
  intros known texts rs N F I NS. unfold parse_events.
  destruct (leqb (join_comma texts) [42; 46; 42]) eqn:E; [apply leqb_eq in E; contradiction|].
  rewrite split_comma_unique by auto. destruct (items_parse _ _ _ I) as (ev & P). exists ev. split; auto.
  intros rs' I'. destruct (parse_items_ok _ _ _ P) as (r2 & I2 & D). intros c e. rewrite D.
  assert (U : forall cur l a, items cur l a -> forall b, items cur l b -> a = b).
  { clear. induction 1 as [cur|cur s l c cl lo hi rs (p & b & nl & CT & BT & M & ->) CC LT HI IT IH]; intros x X; inversion X; subst; auto.
    destruct H1 as (p' & b' & nl' & CT' & BT' & M' & E).
    assert (R : evt_re (p ++ b ++ nl) = evt_re (p' ++ b' ++ nl')) by (rewrite E; reflexivity).
    assert (V : forall c p b lo hi nl, class_text c p -> body_text lo hi b -> maybe_newline nl ->
      exists g, evt_re (p ++ b ++ nl) = Some g /\
       (match fst (fst g) with Some d => Some (dval d) | None => None end = c) /\
       lo = match snd (fst g) with None => 0 | Some d => dval d end /\
       hi = match snd g with Some d => dval d | None => match snd (fst g) with None => 31 | Some d => dval d end end).
    { clear. intros c p b lo hi nl CT BT M.
      assert (EB : exists u v, evt_body (b ++ nl) = Some (u, v) /\ lo = match u with None => 0 | Some d => dval d end /\
         hi = match v with Some d => dval d | None => match u with None => 31 | Some d => dval d end end).
      { destruct BT as [d Nd|d1 d2 N1 N2 L|].
        - exists (Some d), None. rewrite evt_body_one by auto. auto.
        - exists (Some d1), (Some d2). rewrite evt_body_range by auto. auto.
        - exists None, None. rewrite evt_body_star by auto. auto. }
      destruct EB as (u & v & EB & L1 & L2). destruct c as [z|]; cbn [class_text] in CT.
      - destruct CT as (d & Nd & -> & V). rewrite <- !app_assoc, evt_re_class, EB by auto. eexists. split; [reflexivity|]. cbn. rewrite V. auto.
      - subst p. cbn [app]. rewrite (body_no_class lo hi b nl BT M), EB. eexists. split; [reflexivity|]. cbn. auto. }
    destruct (V _ _ _ _ _ _ CT BT M) as (g & G1 & G2 & G3 & G4). destruct (V _ _ _ _ _ _ CT' BT' M') as (g' & G1' & G2' & G3' & G4').
    rewrite R, G1' in G1. injection G1 as <-. rewrite G2 in G2'. subst c0 lo0 hi0 lo hi.
    assert (cl0 = cl) by (destruct CC as [->|[-> ->]], H2 as [H2|[H2 H2']]; congruence). subst cl0. f_equal. apply IH. auto. }
  rewrite (U _ _ _ I2 _ I'). reflexivity.
Qed.
Print Assumptions parse_events_accepts.
Theorem parse_events_known : forall known, parse_events known [42; 46; 42] = Ok known.
Proof. reflexivity. Qed.
(** Hypotheses met: "3.1,4.1-3,7". *)
Example parse_events_demo :
  parse_events [] [51; 46; 49; 44; 52; 46; 49; 45; 51; 44; 55] = Ok [(3, 1); (4, 1); (4, 2); (4, 3); (4, 7)].
Proof. reflexivity. Qed.
Example parse_events_items : items None [[51; 46; 49]; [52; 46; 49; 45; 51]; [55]] [(3, 1, 1); (4, 1, 3); (4, 7, 7)].
Proof.
  assert (D : forall c, 48 <= c <= 57 -> number [c]) by (intros c H; split; [discriminate|constructor; auto]).
  apply (ICons None _ _ (Some 3) 3 1 1); [| |intros; lia|lia|].
  { exists [51; 46], [49], []. split; [exists [51]; split; [apply D; lia|auto]|]. split; [apply (BOne [49]); apply D; lia|].
    split; [left; auto|reflexivity]. }
  { left. reflexivity. }
  apply (ICons (Some 3) _ _ (Some 4) 4 1 3); [| |intros; lia|lia|].
  { exists [52; 46], [49; 45; 51], []. split; [exists [52]; split; [apply D; lia|auto]|].
    split; [apply (BRange [49] [51]); [apply D; lia|apply D; lia|reflexivity]|]. split; [left; auto|reflexivity]. }
  { left. reflexivity. }
  apply (ICons (Some 4) _ _ None 4 7 7); [| |intros []; auto|lia|constructor].
  { exists [], [55], []. split; [reflexivity|]. split; [apply (BOne [55]); apply D; lia|]. split; [left; auto|reflexivity]. }
  { right. auto. }
Qed.

(** *** Filters *)
Lemma code_eqb_eq : forall a b, code_eqb a b = true <-> a = b.
Proof.
  intros [a1 a2] [b1 b2]. unfold code_eqb. cbn [fst snd]. rewrite andb_true_iff, !Z.eqb_eq. split; [intros [-> ->]; auto|].
  intros H. injection H. auto.
Qed.
Lemma fentry_eqb_eq : forall a b, fentry_eqb a b = true <-> a = b.
Proof.
  intros [x|e x] [y|f y]; cbn [fentry_eqb].
  - rewrite code_eqb_eq. split; [intros ->; auto|intros H; injection H; auto].
  - split; discriminate.
  - split; discriminate.
  - rewrite andb_true_iff, code_eqb_eq, Z.eqb_eq. split; [intros [-> ->]; auto|intros H; injection H; auto].
Qed.
Lemma fmem_in : forall f e, fmem f e = true <-> In e f.
Proof.
  intros. unfold fmem. rewrite existsb_exists. split.
  - intros (x & H & E). apply fentry_eqb_eq in E. subst. auto.
  - intros H. exists e. split; auto. apply fentry_eqb_eq. auto.
Qed.
Lemma fadd_in : forall f e x, In x (fadd f e) <-> x = e \/ In x f.
Proof.
  intros. unfold fadd. destruct (fmem f e) eqn:M.
  - apply fmem_in in M. split; auto. intros [->|H]; auto.
  - cbn [In]. split; intros [->|H]; auto.
Qed.
Lemma fdiscard_in : forall f e x, In x (fdiscard f e) <-> x <> e /\ In x f.
Proof.
  intros. unfold fdiscard. rewrite filter_In, negb_true_iff. split.
  - intros [H E]. split; auto. intros ->. rewrite (proj2 (fentry_eqb_eq e e)) in E; auto. discriminate.
  - intros [N H]. split; auto. destruct (fentry_eqb e x) eqn:E; auto. apply fentry_eqb_eq in E. congruence.
Qed.
(** Specification: a history of enable and disable requests, and whether an
    entry is enabled after it: the last request that names it was an enable. *)
Record freq := { f_events : list (Z * Z); f_entity : option Z; f_enable : bool }.
Definition names (known : list (Z * Z)) (r : freq) (e : fentry) : Prop :=
  exists c, In c (f_events r) /\ In c known /\ e = match f_entity r with Some x => FQual x c | None => FCode c end.
Definition enabled (known : list (Z * Z)) (h : list freq) (e : fentry) : Prop :=
  exists h1 r h2, h = h1 ++ r :: h2 /\ f_enable r = true /\ names known r e /\
    forall r', In r' h2 -> names known r' e -> f_enable r' = true.
Definition frun (known : list (Z * Z)) (f : list fentry) (h : list freq) : list fentry :=
  fold_left (fun f r => setfilter known f (f_events r) (f_entity r) (f_enable r)) h f.

Lemma fold_add : forall ent l f e,
  In e (fold_left (fun f e => let e := match ent with Some x => FQual x e | None => FCode e end in fadd f e) l f) <->
  (exists c, In c l /\ e = match ent with Some x => FQual x c | None => FCode c end) \/ In e f.
Proof.
  induction l as [|c l IH]; intros f e; cbn [fold_left].
  - split; auto. intros [(c & [] & _)|H]; auto.
  - rewrite IH. cbv zeta. rewrite fadd_in. split.
    + intros [(x & H & E)|[->|H]]; auto; left; [exists x|exists c]; cbn [In]; auto.
    + intros [(x & [->|H] & E)|H]; auto. left. exists x. auto.
Qed.
Lemma fold_discard : forall ent l f e,
  In e (fold_left (fun f e => let e := match ent with Some x => FQual x e | None => FCode e end in fdiscard f e) l f) <->
  ~ (exists c, In c l /\ e = match ent with Some x => FQual x c | None => FCode c end) /\ In e f.
Proof.
  induction l as [|c l IH]; intros f e; cbn [fold_left].
  - split; [|tauto]. intros H. split; auto. intros (c & [] & _).
  - rewrite IH. cbv zeta. rewrite fdiscard_in. split.
    + intros [H [N I]]. split; auto. intros (x & [->|H2] & E); [auto|]. apply H. exists x. auto.
    + intros [H I]. split; [|split; auto].
      * intros (x & H2 & E). apply H. exists x. cbn [In]. auto.
      * intros ->. apply H. exists c. cbn [In]. auto.
Qed.
Lemma setfilter_in : forall known f r e,
  In e (setfilter known f (f_events r) (f_entity r) (f_enable r)) <->
  if f_enable r then names known r e \/ In e f else ~ names known r e /\ In e f.
Proof.
  intros known f [evs ent en] e. unfold setfilter, names. cbn [f_events f_entity f_enable].
  assert (FI : forall c, In c (filter (fun e0 => existsb (code_eqb e0) known) evs) <-> In c evs /\ In c known).
  { intros c. rewrite filter_In, existsb_exists. split.
    - intros [H (x & Hx & E)]. apply code_eqb_eq in E. subst. auto.
    - intros [H1 H2]. split; auto. exists c. split; auto. apply code_eqb_eq. auto. }
  assert (X : (exists c, In c (filter (fun e0 => existsb (code_eqb e0) known) evs) /\ e = match ent with Some x => FQual x c | None => FCode c end)
     <-> exists c, In c evs /\ In c known /\ e = match ent with Some x => FQual x c | None => FCode c end).
  { split; intros (c & H); exists c; rewrite FI in *; tauto. }
  destruct en; [rewrite fold_add|rewrite fold_discard]; rewrite X; tauto.
Qed.
Lemma names_dec : forall known r e, names known r e \/ ~ names known r e.
Proof.
  intros known r e.
  destruct (existsb (fun c => existsb (code_eqb c) known && fentry_eqb e (match f_entity r with Some x => FQual x c | None => FCode c end)) (f_events r)) eqn:X.
  - left. apply existsb_exists in X as (c & H & E). apply andb_true_iff in E as [K E]. apply existsb_exists in K as (k & K & Q).
    apply code_eqb_eq in Q. subst k. apply fentry_eqb_eq in E. exists c. auto.
  - right. intros (c & H & K & E). assert (Y : existsb (fun c => existsb (code_eqb c) known && fentry_eqb e (match f_entity r with Some x => FQual x c | None => FCode c end)) (f_events r) = true); [|congruence].
    apply existsb_exists. exists c. split; auto. apply andb_true_iff. split; [|apply fentry_eqb_eq; auto].
    apply existsb_exists. exists c. split; auto. apply code_eqb_eq. auto.
Qed.
Lemma frun_in : forall known h e, In e (frun known [] h) <-> enabled known h e.
Proof.
  intros known h e. induction h as [|r h IH] using rev_ind.
  - cbn. split; [intros []|]. intros (h1 & r & h2 & E & _). destruct h1; discriminate.
  - unfold frun. rewrite fold_left_app. cbn [fold_left]. rewrite setfilter_in. fold (frun known [] h).
    destruct (f_enable r) eqn:En.
    + rewrite IH. split.
      * intros [N|(h1 & r0 & h2 & -> & E0 & N0 & L)].
        -- exists h, r, []. split; [auto|split; [auto|split; [auto|intros r' []]]].
        -- exists h1, r0, (h2 ++ [r]). rewrite <- app_assoc. split; auto. split; auto. split; auto.
           intros r' I N. apply in_app_iff in I as [I|[<-|[]]]; auto.
      * intros (h1 & r0 & h2 & E & E0 & N0 & L). destruct h2 as [|x h2] using rev_ind.
        -- apply app_inj_tail in E as [-> ->]. auto.
        -- rewrite app_comm_cons, app_assoc in E. apply app_inj_tail in E as [-> ->]. right. exists h1, r0, h2.
           split; [auto|split; [auto|split; [auto|]]]. intros r' I. apply L. apply in_app_iff. auto.
    + rewrite IH. split.
      * intros [NN (h1 & r0 & h2 & -> & E0 & N0 & L)]. exists h1, r0, (h2 ++ [r]). rewrite <- app_assoc.
        split; auto. split; auto. split; auto. intros r' I N. apply in_app_iff in I as [I|[<-|[]]]; [auto|contradiction].
      * intros (h1 & r0 & h2 & E & E0 & N0 & L). destruct h2 as [|x h2] using rev_ind.
        -- apply app_inj_tail in E as [-> ->]. congruence.
        -- rewrite app_comm_cons, app_assoc in E. apply app_inj_tail in E as [-> ->]. split.
           ++ intros N. assert (f_enable x = true); [|congruence]. apply L; auto. apply in_app_iff. cbn [In]. auto.
           ++ exists h1, r0, h2. split; [auto|split; [auto|split; [auto|]]]. intros r' I. apply L. apply in_app_iff. auto.
Qed.
(** A filter passes an event iff its code, alone or qualified by its entity,
    was enabled and not disabled since. *)
Theorem filter_correct : forall known h ent code, passes (frun known [] h) ent code = true <->
  enabled known h (FCode code) \/ exists x, ent = Some x /\ enabled known h (FQual x code).
Proof.
  intros known h ent code. unfold passes. rewrite orb_true_iff, fmem_in, frun_in. split; intros [H|H]; auto.
  - right. destruct ent as [x|]; [|discriminate]. rewrite fmem_in, frun_in in H. eauto.
  - right. destruct H as (x & -> & H). rewrite fmem_in, frun_in. auto.
Qed.
Print Assumptions filter_correct.
Example filter_demo :
  let h := [{| f_events := [(4, 1); (4, 2); (9, 9)]; f_entity := None; f_enable := true |};
            {| f_events := [(4, 2)]; f_entity := None; f_enable := false |};
            {| f_events := [(4, 2)]; f_entity := Some 7; f_enable := true |}] in
  let f := frun [(4, 1); (4, 2)] [] h in
  passes f None (4, 1) = true /\ passes f None (4, 2) = false /\ passes f (Some 7) (4, 2) = true /\
  passes f (Some 8) (4, 2) = false /\ passes f None (9, 9) = false.
Proof. vm_compute. auto. Qed.

(** *** C49 *)
(** Specification: what is sent or waiting, compared with the events written.
    Each run of dropped events is replaced by one Lost. *)
Inductive thinned : list Z -> list qitem -> Prop :=
| TNil : thinned [] []
| TEv : forall w o e, thinned w o -> thinned (w ++ [e]) (o ++ [Ev e])
| TLost : forall w o d, thinned w o -> d <> [] -> (forall o', o <> o' ++ [Lost]) -> thinned (w ++ d) (o ++ [Lost]).
Definition written (l : list sop) : list Z := flat_map (fun o => match o with Write e _ _ => [e] | _ => [] end) l.
Definition queue_ok (limit : Z) (q : list qitem) : Prop :=
  zlen q <= limit \/ (zlen q = limit + 1 /\ exists q', q = q' ++ [Lost]).

Lemma thinned_drop : forall w o e, thinned w (o ++ [Lost]) -> thinned (w ++ [e]) (o ++ [Lost]).
Proof.
  intros w o e H. inversion H as [E|w' o' x T E1 E2|w' o' d T Nd NL E1 E2].
  - destruct o; discriminate.
  - apply app_inj_tail in E2 as [_ E2]. discriminate.
  - apply app_inj_tail in E2 as [-> _]. rewrite <- app_assoc. constructor; auto. destruct d; discriminate.
Qed.
Lemma q_append_ok : forall limit q e sent w, 1 <= limit -> queue_ok limit q -> thinned w (sent ++ q) ->
  exists q', q_append limit q e = Ok q' /\ queue_ok limit q' /\ thinned (w ++ [e]) (sent ++ q').
Proof.
  intros limit q e sent w L Q T. unfold q_append. destruct (Z.leb_spec limit (zlen q)) as [F|F].
  - destruct q as [|x q _] using rev_ind; [rewrite zlen_nil in F; lia|]. rewrite rev_app_distr. cbn [rev app].
    destruct x as [x|].
    + exists ((q ++ [Ev x]) ++ [Lost]). split; auto. split.
      * right. rewrite zlen_app. change (zlen [Lost]) with 1. split; [|eauto].
        destruct Q as [Q|[Q (q' & E)]]; [lia|]. apply app_inj_tail in E as [_ E]. discriminate.
      * rewrite app_assoc. constructor; auto; [discriminate|]. intros o' E. rewrite app_assoc in E.
        apply app_inj_tail in E as [_ E]. discriminate.
    + exists (q ++ [Lost]). split; auto. split; auto. rewrite app_assoc in *. apply thinned_drop. auto.
  - exists (q ++ [Ev e]). split; auto. split.
    + left. rewrite zlen_app. change (zlen [Ev e]) with 1. lia.
    + rewrite app_assoc. constructor. auto.
Qed.
Lemma send_loop_spec : forall q ok s r b, send_loop q ok = (s, r, b) -> q = s ++ r /\ (b = true -> r = []).
Proof.
  induction q as [|e q IH]; intros ok s r b H; cbn [send_loop] in H.
  - injection H as <- <- <-. auto.
  - assert (X : forall ok', (let '(s0, r0, b0) := send_loop q ok' in (e :: s0, r0, b0)) = (s, r, b) -> e :: q = s ++ r /\ (b = true -> r = [])).
    { intros ok' X. destruct (send_loop q ok') as [[s0 r0] b0] eqn:E. injection X as <- <- <-. destruct (IH _ _ _ _ E) as [-> N]. auto. }
    destruct ok as [|[|] ok]; try (eapply X; eassumption). injection H as <- <- <-. split; auto. discriminate.
Qed.
Lemma queue_ok_suffix : forall limit a b, 0 <= limit -> queue_ok limit (a ++ b) -> queue_ok limit b.
Proof.
  intros limit a b L [H|[H (q & E)]]; unfold queue_ok; rewrite zlen_app in H; pose proof (zlen_nonneg _ a); pose proof (zlen_nonneg _ b).
  - left. lia.
  - destruct a as [|x a]; [right; split; [rewrite zlen_nil in H; lia|exists q; auto]|]. left. rewrite zlen_cons in H.
    pose proof (zlen_nonneg _ a). lia.
Qed.
Lemma send_events_ok : forall limit s ok c s' o, 0 <= limit -> queue_ok limit (queue s) -> send_events s ok c = (s', o) ->
  queue s = o ++ queue s' /\ queue_ok limit (queue s').
Proof.
  intros limit s ok c s' o L Q H. unfold send_events in H. destruct (sinkconn s).
  - destruct (sinknode s && scport s); [destruct c|]; injection H as <- <-; auto.
  - injection H as <- <-. auto.
  - destruct (send_loop (queue s) ok) as [[sent q] b] eqn:E. injection H as <- <-. cbn [queue].
    apply send_loop_spec in E as [E _]. split; auto. rewrite E in Q. apply queue_ok_suffix in Q; auto.
Qed.
Lemma sink_run_ok : forall limit l s sent w, 1 <= limit -> queue_ok limit (queue s) -> thinned w (sent ++ queue s) ->
  exists s' o, sink_run limit s l = Ok (s', o) /\ queue_ok limit (queue s') /\
    thinned (w ++ written l) ((sent ++ o) ++ queue s').
Proof.
  induction l as [|op l IH]; intros s sent w L Q T; cbn [sink_run].
  - exists s, []. split; auto. split; auto. cbn [written flat_map]. rewrite !app_nil_r. auto.
  - assert (K : exists s1 o1, sink_step limit s op = Ok (s1, o1) /\ queue_ok limit (queue s1) /\
      thinned (w ++ written [op]) ((sent ++ o1) ++ queue s1)).
    { destruct op as [e ok c|ok c| |ok c|]; cbn [sink_step written flat_map].
      - destruct (q_append_ok limit (queue s) e sent w L Q T) as (q & E & Q' & T'). rewrite E. cbn [bind].
        set (s0 := {| sinkconn := sinkconn s; sinknode := sinknode s; scport := scport s; queue := q |}).
        destruct (send_events s0 ok c) as [s1 o1] eqn:SE. exists s1, o1. split; auto.
        apply (send_events_ok limit) in SE; [|lia|exact Q']. destruct SE as [E1 Q1]. split; auto.
        cbn [queue s0] in E1. rewrite <- app_assoc, <- E1. exact T'.
      - destruct (send_events s ok c) as [s1 o1] eqn:SE. exists s1, o1. split; auto.
        apply (send_events_ok limit) in SE; [|lia|exact Q]. destruct SE as [E1 Q1]. split; auto.
        rewrite <- app_assoc, <- E1, app_nil_r. exact T.
      - exists (set_conn s CNone), []. rewrite !app_nil_r. auto.
      - destruct (send_events (set_conn s CUp) ok c) as [s1 o1] eqn:SE. exists s1, o1. split; auto.
        apply (send_events_ok limit) in SE; [|lia|exact Q]. destruct SE as [E1 Q1]. split; auto.
        cbn [queue set_conn] in E1. rewrite <- app_assoc, <- E1, app_nil_r. exact T.
      - eexists _, []. rewrite !app_nil_r. split; [reflexivity|]. auto. }
    destruct K as (s1 & o1 & E1 & Q1 & T1). rewrite E1. cbn [bind].
    destruct (IH s1 (sent ++ o1) (w ++ written [op]) L Q1 T1) as (s2 & o2 & E2 & Q2 & T2). rewrite E2. cbn [bind].
    exists s2, (o1 ++ o2). split; auto. split; auto. rewrite <- !app_assoc in T2. rewrite <- !app_assoc.
    unfold written in *. cbn [flat_map] in *. rewrite app_nil_r in T2. exact T2.
Qed.
(** For every history of events, connections, failures and retries: what was
    transmitted followed by what is queued is the sequence of events written
    with each run of dropped events replaced by one "events lost", and the
    queue holds at most limit + 1 entries. *)
Theorem event_queue : forall limit l, 1 <= limit -> exists s o, sink_run limit sink_init l = Ok (s, o) /\
  thinned (written l) (o ++ queue s) /\ queue_ok limit (queue s).
Proof.
  intros limit l L. destruct (sink_run_ok limit l sink_init [] [] L) as (s & o & E & Q & T).
  - left. cbn. lia.
  - constructor.
  - exists s, o. auto.
Qed.
Print Assumptions event_queue.
(** While the connection is up everything in the queue is transmitted, in order,
    until a transmission fails (the first [k] succeed): what is left, starting
    with the event that failed, stays queued, and the connection is given up. *)
Theorem event_transmit : forall limit s k rest c, (k < length (queue s))%nat ->
  sink_step limit s (Accepted (repeat true k ++ false :: rest) c) =
    Ok ({| sinkconn := CNone; sinknode := sinknode s; scport := scport s; queue := skipn k (queue s) |}, firstn k (queue s)) /\
  (forall ok, (forall b, In b ok -> b = true) ->
    sink_step limit s (Accepted ok c) = Ok ({| sinkconn := CUp; sinknode := sinknode s; scport := scport s; queue := [] |}, queue s)).
Proof.
  intros limit s k rest c K. split.
  - assert (L : forall q k, (k < length q)%nat -> send_loop q (repeat true k ++ false :: rest) = (firstn k q, skipn k q, false)).
    { induction q as [|e q IH]; intros [|j] J; cbn [length] in J; try lia; [reflexivity|]. cbn [repeat app send_loop tl firstn skipn]. rewrite IH by lia. reflexivity. }
    cbn [sink_step set_conn send_events sinkconn queue sinknode scport]. unfold send_events. cbn [sinkconn set_conn queue sinknode scport]. rewrite L by exact K. reflexivity.
  - intros ok A. assert (L : forall q ok, (forall b, In b ok -> b = true) -> send_loop q ok = (q, [], true)).
    { induction q as [|e q IH]; intros o O; [reflexivity|]. cbn [send_loop]. destruct o as [|b o]; [cbn [tl]; rewrite IH by (intros b []); reflexivity|].
      rewrite (O b) by (left; reflexivity). cbn [tl]. rewrite IH by (intros x X; apply O; right; exact X). reflexivity. }
    cbn [sink_step]. unfold send_events. cbn [sinkconn set_conn queue sinknode scport]. rewrite L by exact A. reflexivity.
Qed.
Print Assumptions event_transmit.
(** The first event makes the sink connect; a sink that was stopped does not
    transmit unless a connection is accepted after that. *)
Theorem event_connect : forall limit e ok, 1 <= limit ->
  sink_step limit sink_init (Write e ok true) = Ok ({| sinkconn := CPending; sinknode := true; scport := true; queue := [Ev e] |}, []).
Proof.
  intros limit e ok L. cbn [sink_step]. unfold q_append. cbn [queue sink_init]. change (zlen (@nil qitem)) with 0. destruct (Z.leb_spec limit 0); [lia|]. reflexivity.
Qed.
Print Assumptions event_connect.
Theorem event_stopped : forall limit l s s1 o1 s' o, sink_step limit s StopSink = Ok (s1, o1) -> (forall ok c, ~ In (Accepted ok c) l) ->
  sink_run limit s1 l = Ok (s', o) -> o1 = [] /\ o = [] /\ sinkconn s' = CNone.
Proof.
  intros limit l s s1 o1 s' o H NA R. injection H as <- <-. split; [reflexivity|].
  assert (G : forall l s o s', sinkconn s = CNone -> scport s = false -> (forall ok c, ~ In (Accepted ok c) l) -> sink_run limit s l = Ok (s', o) -> o = [] /\ sinkconn s' = CNone).
  { clear. induction l as [|op l IH]; intros s o s' C P NA R; cbn [sink_run] in R; [injection R as <- <-; auto|].
    destruct (sink_step limit s op) as [[s1 o1]|] eqn:E; cbn [bind] in R; [|discriminate]. destruct (sink_run limit s1 l) as [[s2 o2]|] eqn:E2; cbn [bind] in R; [|discriminate]. injection R as <- <-.
    assert (NA2 : forall ok c, ~ In (Accepted ok c) l) by (intros ok c X; apply (NA ok c); right; exact X).
    assert (X : o1 = [] /\ sinkconn s1 = CNone /\ scport s1 = false).
    { destruct op as [e ok c|ok c| |ok c|]; cbn [sink_step] in E.
      - destruct (q_append limit (queue s) e) as [q|]; cbn [bind] in E; [|discriminate]. unfold send_events in E. cbn [sinkconn scport sinknode queue] in E. rewrite C, P, andb_false_r in E. injection E as <- <-. cbn. rewrite ?C. auto.
      - unfold send_events in E. rewrite C, P, andb_false_r in E. injection E as <- <-. auto.
      - injection E as <- <-. auto.
      - destruct (NA ok c). left. reflexivity.
      - injection E as <- <-. auto. }
    destruct X as (-> & C1 & P1). destruct (IH s1 o2 s2 C1 P1 NA2 E2) as [-> C2]. auto. }
  apply (G l _ o s') in R; auto.
Qed.
Print Assumptions event_stopped.
Example event_transmit_example : sink_step 5 {| sinkconn := CPending; sinknode := true; scport := true; queue := [Ev 1; Ev 2; Ev 3] |} (Accepted [true; false] true) =
  Ok ({| sinkconn := CNone; sinknode := true; scport := true; queue := [Ev 2; Ev 3] |}, [Ev 1]).
Proof. reflexivity. Qed.
(** With limit 0 the first event raises IndexError. *)
Theorem event_queue_zero_refuted : forall e ok c, sink_run 0 sink_init [Write e ok c] = Err EIndex.
Proof. reflexivity. Qed.
Example event_queue_demo : exists s,
  sink_run 2 sink_init [Write 1 [] true; Write 2 [] true; Write 3 [] true; Write 4 [] true;
                        Accepted [true; false] true; Write 5 [] true; Accepted [] true; Write 6 [] true] =
  Ok (s, [Ev 1; Ev 2; Lost; Ev 6]) /\ queue s = [].
Proof. eexists. split; vm_compute; reflexivity. Qed.
