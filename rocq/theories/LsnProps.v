(** Property C83: the talk server. *)
From Verif Require Import Base Dict PacketProofs AddrModel AddrProps LsnModel.

(** * Specification *)
(** The two formats of connect data, by the comment of lsn.py 37-42: terminals are 16 bit numbers, low byte first. *)
Definition byte (c : Z) : Prop := 0 <= c < 256.
Definition word (v : Z) : list Z := [v mod 256; v / 256].
Definition phase1 (t s flag : Z) : list Z := word t ++ word s ++ [flag].
Definition phase2 (res t s flag : Z) : list Z := 0 :: res :: phase1 t s flag.
(** A node name has letters and digits. *)
Definition namechar (c : Z) : Prop := 48 <= c <= 57 \/ 65 <= c <= 90 \/ 97 <= c <= 122.
Definition good (r : remote) : Prop := match r with RName n => Forall namechar n /\ n <> [] | RNum v => 0 <= v end.
(** The messages of the dialog: those before the first that is something else. *)
Fixpoint dialog (l : list inp) : list (list Z) :=
  match l with LData b :: t => b :: dialog t | _ => [] end.
Definition writes (l : list out) : list (list Z) := flat_map (fun o => match o with OWrite b => [b] | _ => [] end) l.
Definition opened (l : list out) : list Z := flat_map (fun o => match o with OOpen t => [t] | _ => [] end) l.
(** The line for a message: who, the text without parity bits, a new line. *)
Definition line (pfx b x : list Z) : Prop := exists t, x = pfx ++ t ++ [13; 10] /\ length t = length b /\
  forall k c, nth_error b k = Some c -> nth_error t k = Some (c mod 128).

Lemma namechar_ascii c : namechar c -> 0 <= c < 128.
Proof. unfold namechar. lia. Qed.
Lemma digit_ascii c : digit c -> namechar c.
Proof. unfold digit, namechar. lia. Qed.
Lemma remstr_chars r : good r -> Forall namechar (remstr r).
Proof.
  destruct r as [n | v]; cbn [good remstr]; intros H; [exact (proj1 H) |].
  destruct (str10_spec v H) as [[_ F] _]. eapply Forall_impl; [| exact F]. exact digit_ascii.
Qed.
Lemma prefix_ok r s : good r -> 0 <= s -> prefix r s = Ok ([84; 76; 75; 62] ++ remstr r ++ [95; 84; 84] ++ str10 s ++ [58]).
Proof.
  intros G S. unfold prefix. set (x := _ ++ _).
  assert (F : Forall (fun c => 0 <= c < 128) x).
  { unfold x. repeat rewrite Forall_app. repeat split; try (repeat constructor; lia).
    - eapply Forall_impl; [exact namechar_ascii | apply remstr_chars; exact G].
    - destruct (str10_spec s S) as [[_ D] _]. eapply Forall_impl; [| exact D]. intros c H. apply namechar_ascii, digit_ascii, H. }
  replace (forallb _ x) with true; [reflexivity |]. symmetry. apply forallb_forall. intros c I. rewrite Forall_forall in F. specialize (F c I). lia.
Qed.

(** Both formats say the same terminals. *)
Theorem lsn_formats t s flag r : 0 <= t < 65536 -> 0 <= s < 65536 ->
  connect_data (phase1 t s flag) = Ok (t, s) /\ connect_data (phase2 r t s flag) = Ok (t, s).
Proof.
  intros T S.
  assert (A : forall a b c d f : Z, connect_data [a; b; c; d; f] = Ok (a + 256 * (b + 256 * 0), c + 256 * (d + 256 * 0))) by reflexivity.
  assert (B : forall a b c d f : Z, connect_data [0; r; a; b; c; d; f] = Ok (a + 256 * (b + 256 * 0), c + 256 * (d + 256 * 0))) by reflexivity.
  unfold phase2, phase1, word. cbn [app]. rewrite A, B.
  replace (t mod 256 + 256 * (t / 256 + 256 * 0)) with t by lia. replace (s mod 256 + 256 * (s / 256 + 256 * 0)) with s by lia. auto.
Qed.
Print Assumptions lsn_formats.

Lemma talk_writes pfx l : Forall2 (line pfx) (dialog l) (writes (talk pfx l)) /\ opened (talk pfx l) = [].
Proof.
  induction l as [| i l [IH O]]; [split; [constructor | reflexivity] |]. destruct i as [| b | |]; cbn [dialog talk writes opened flat_map app]; try (split; [constructor | reflexivity]).
  split; [constructor; [| exact IH] | exact O]. eexists. split; [reflexivity |]. split; [apply map_length |].
  intros k c H. rewrite nth_error_map, H. cbn [option_map]. f_equal. change 127 with (Z.ones 7). rewrite Z.land_ones by lia. reflexivity.
Qed.

(** The server opens the terminal that the connect data names, before it accepts, and no
    other; it writes each message of the dialog to it, in order, and nothing else, on a line
    that begins with the sender. *)
Theorem lsn_talk can r m t s f l : m = phase1 t s f \/ (exists x, m = phase2 x t s f) -> 0 <= t < 65536 -> 0 <= s < 65536 -> good r -> can t = true ->
  exists rest pfx, lsn can r m (LRun :: l) = OOpen t :: OAccept :: rest /\ opened rest = [] /\
    prefix r s = Ok pfx /\ Forall2 (line pfx) (dialog l) (writes rest).
Proof.
  intros M T S' G K. assert (S : 0 <= s) by lia.
  assert (C : connect_data m = Ok (t, s)) by (destruct M as [M | [x M]]; rewrite M; [apply (lsn_formats t s f 0) | apply (lsn_formats t s f x)]; assumption).
  unfold lsn. rewrite C, (prefix_ok r s G S), K. eexists. eexists. split; [reflexivity |].
  destruct (talk_writes ([84; 76; 75; 62] ++ remstr r ++ [95; 84; 84] ++ str10 s ++ [58]) l) as [A B]. auto.
Qed.
Print Assumptions lsn_talk.

Lemma chars_split : forall a b x y, Forall namechar a -> Forall namechar b -> a ++ 95 :: x = b ++ 95 :: y -> a = b /\ x = y.
Proof.
  induction a as [| c a IH]; intros [| d b] x y A B E; cbn [app] in E.
  - injection E as E. auto.
  - injection E as E _. inversion B as [| ? ? N]; subst. unfold namechar in N. lia.
  - injection E as E _. inversion A as [| ? ? N]; subst. unfold namechar in N. lia.
  - injection E as E1 E2. inversion A; inversion B; subst. destruct (IH b x y) as [E3 E4]; auto. subst. auto.
Qed.
(** The line tells who sends: two senders with the same prefix are the same node, as it is
    shown, and the same terminal. *)
Theorem lsn_who r s r' s' p : good r -> good r' -> 0 <= s -> 0 <= s' ->
  prefix r s = Ok p -> prefix r' s' = Ok p -> remstr r = remstr r' /\ s = s'.
Proof.
  intros G G' S S' E E'. rewrite (prefix_ok r s G S) in E. rewrite (prefix_ok r' s' G' S') in E'.
  injection E as E. injection E' as E'. rewrite <- E in E'. clear E p. cbn [app] in E'. injection E' as E'.
  apply chars_split in E' as [A B]; try (apply remstr_chars; assumption). split; [symmetry; exact A |].
  injection B as B. apply app_inj_tail in B as [B _].
  rewrite <- (proj2 (str10_spec s S)), <- (proj2 (str10_spec s' S')), B. reflexivity.
Qed.
Print Assumptions lsn_who.

(** A terminal that cannot be opened, or connect data that are too short: the server does
    nothing to the connection, neither accept nor reject, and ends. *)
Theorem lsn_refuses can r m l : (forall t s, connect_data m = Ok (t, s) -> can t = false) ->
  exists e, lsn can r m l = [OErr e].
Proof.
  intros H. unfold lsn. destruct (connect_data m) as [[t s] | e] eqn:C; [| eauto]. rewrite (H t s eq_refl). destruct (prefix r s); eauto.
Qed.
Print Assumptions lsn_refuses.

(** Which connect data are taken: by the length only. *)
Theorem lsn_lengths m : (exists t s, connect_data m = Ok (t, s)) <-> zlen m = 5 \/ 7 <= zlen m.
Proof.
  assert (N : forall x : list Z, (exists t s, (match nth_error x 4 with Some _ => Ok (le (firstn 2 x), le (firstn 2 (skipn 2 x))) | None => Err EIndex end) = Ok (t, s)) <-> 5 <= zlen x).
  { intros x. destruct (nth_error x 4) as [c |] eqn:E.
    - assert (4 < length x)%nat by (apply nth_error_Some; congruence). unfold zlen. split; [lia | eauto].
    - apply nth_error_None in E. unfold zlen. split; [intros (t & s & X); discriminate X | lia]. }
  assert (K : zlen (skipn 2 m) = Z.max 0 (zlen m - 2)) by (unfold zlen; rewrite skipn_length; lia).
  unfold connect_data. destruct ((zlen m =? 7) && _) eqn:A.
  - rewrite N, K. apply andb_prop in A as [A _]. lia.
  - destruct (Z.eqb_spec (zlen m) 5) as [B | B]; cbn [negb]; rewrite N; [lia |]. rewrite K. lia.
Qed.
Print Assumptions lsn_lengths.

(** It is not so that only the two formats are taken: connect data of format 1 (or of a
    login, in a longer message) name a terminal too, by their third and fourth byte. *)
Theorem lsn_format_refuted : ~ (forall m t s, connect_data m = Ok (t, s) -> (exists a b f, m = phase1 a b f) \/ (exists r a b f, m = phase2 r a b f)).
Proof.
  intros H. destruct (H [1; 0; 3; 0; 4; 0; 0; 9] 3 4 eq_refl) as [(a & b & f & E) | (r & a & b & f & E)]; discriminate E.
Qed.
Print Assumptions lsn_format_refuted.

(** The server ends the terminal and itself with the connection; the status is 0 if the
    other side has disconnected, and 2 if it has sent anything but data. *)
Theorem lsn_end can r m t s l e l' : connect_data m = Ok (t, s) -> good r -> 0 <= s -> can t = true ->
  l = map LData (dialog l) ++ e :: l' -> (forall b, e <> LData b) ->
  exists front, lsn can r m (LRun :: l) = front ++ [OClose; OExit (match e with LDisc => 0 | _ => 2 end)] /\
    (forall c, ~ In (OExit c) front) /\ ~ In OClose front.
Proof.
  intros C G S K L E. unfold lsn. rewrite C, (prefix_ok r s G S), K.
  set (p := [84; 76; 75; 62] ++ _). clearbody p. rewrite L. generalize (dialog l) as d. clear L. intros d.
  assert (X : exists front, talk p (map LData d ++ e :: l') = front ++ [OClose; OExit (match e with LDisc => 0 | _ => 2 end)] /\
    (forall c, ~ In (OExit c) front) /\ ~ In OClose front).
  { induction d as [| b d (f & F & A & B)]; cbn [map app talk].
    - exists []. split; [| split; intros; intros []]. destruct e as [| b | |]; [reflexivity | destruct (E b eq_refl) | reflexivity | reflexivity].
    - rewrite F. eexists (_ :: f). split; [reflexivity |]. split; [intros c [X | X]; [discriminate X | exact (A c X)] | intros [X | X]; [discriminate X | exact (B X)]]. }
  destruct X as (f & F & A & B). rewrite F. exists (OOpen t :: OAccept :: f). split; [reflexivity |].
  split; [intros c [X | [X | X]]; try discriminate X; exact (A c X) | intros [X | [X | X]]; try discriminate X; exact (B X)].
Qed.
Print Assumptions lsn_end.

Example lsn_ex : lsn (fun t => t =? 259) (RName [80; 89]) (phase2 0 259 12 1) [LRun; LData [200; 233]; LData []; LDisc]
  = [OOpen 259; OAccept; OWrite [84; 76; 75; 62; 80; 89; 95; 84; 84; 49; 50; 58; 72; 105; 13; 10]; OWrite [84; 76; 75; 62; 80; 89; 95; 84; 84; 49; 50; 58; 13; 10]; OClose; OExit 0]
  /\ good (RName [80; 89]).
Proof. split; [reflexivity |]. split; [repeat constructor; unfold namechar; lia | discriminate]. Qed.
Example lsn_ex_short : lsn (fun _ => true) (RNum 1025) [0; 0; 3; 0; 4; 0] [LRun] = [OErr EIndex].
Proof. reflexivity. Qed.
Example lsn_ex_end : let l := [LData [65]; LOther; LData [66]] in l = map LData (dialog l) ++ LOther :: [LData [66]].
Proof. reflexivity. Qed.
