(** What the mirrors answer (C87). *)
From Verif Require Import Base NmlModel MirrorModel.

(** * Specification *)
(** Data that the mirror can answer, and the answer: the data with the function code 0
    turned into the status 1, or the status 255 alone. *)
Inductive echo : list Z -> list Z -> Prop :=
| echo_loop d : echo (0 :: d) (1 :: d)
| echo_bad f d : f <> 0 -> echo (f :: d) [255].
(** What is due to an item, if anything. *)
Inductive due : work -> option ask -> Prop :=
| due_data c m b : echo m b -> due (mkW c KData m) (Some (QData b))
| due_conn c m : due (mkW c KConnect m) (Some (QAccept [255; 255]))
| due_run c m : due (mkW c KRun m) None
| due_other c m : due (mkW c KOther m) None.
Inductive dues : list work -> list (Z * ask) -> Prop :=
| dues_nil : dues [] []
| dues_some w t a o : due w (Some a) -> dues t o -> dues (w :: t) ((w_conn w, a) :: o)
| dues_none w t o : due w None -> dues t o -> dues (w :: t) o.
(** Items that let the program go on. *)
Definition goes_on (w : work) : Prop := w_kind w <> KDisc /\ ~ (w_kind w = KData /\ w_data w = []).

(** * Lemmas *)
Lemma reply_echo : forall m b, reply m = Ok b <-> echo m b.
Proof.
  intros m b. split.
  - destruct m as [|f d]; cbn [reply]; [discriminate|]. destruct (Z.eqb_spec f 0) as [->|N]; intros H; injection H as <-; constructor; exact N.
  - destruct 1 as [d|f d N]; cbn [reply]; [reflexivity|]. apply Z.eqb_neq in N. rewrite N. reflexivity.
Qed.
Lemma reply_err : forall m e, reply m = Err e -> m = [] /\ e = EIndex.
Proof. intros [|f d] e H; cbn [reply] in H; [injection H as <-; split; reflexivity|]. destruct (f =? 0); discriminate. Qed.
Lemma maxlen_eq : maxlen = [255; 255].
Proof. reflexivity. Qed.

Lemma go : forall w, goes_on w -> exists oa, due w oa /\
  forall t, mirror1 (w :: t) = (match oa with Some a => [(w_conn w, a)] | None => [] end ++ fst (mirror1 t), snd (mirror1 t)).
Proof.
  intros [c k m] [D E]. cbn [w_kind w_data w_conn] in *. destruct k.
  - exists (Some (QAccept [255; 255])). split; [constructor|]. intros t. cbn [mirror1 w_kind w_conn]. destruct (mirror1 t) as [o s]. reflexivity.
  - exists None. split; [constructor|]. intros t. cbn [mirror1 w_kind app]. destruct (mirror1 t). reflexivity.
  - destruct (reply m) as [b|e] eqn:R.
    + exists (Some (QData b)). split; [constructor; apply reply_echo; exact R|]. intros t. cbn [mirror1 w_kind w_data w_conn]. rewrite R. destruct (mirror1 t) as [o s]. reflexivity.
    + apply reply_err in R as [-> _]. exfalso. apply E. split; reflexivity.
  - congruence.
  - exists None. split; [constructor|]. intros t. cbn [mirror1 w_kind app]. destruct (mirror1 t). reflexivity.
Qed.

(** * mirror.py *)
(** As long as items let it go on, it answers each, on the connection that it came from,
    in order; then it exits with 1 at the end of the input, with 0 at a disconnect, and
    with an IndexError at data without a byte. *)
Theorem mirror1_serves : forall l rest, Forall goes_on l ->
  exists o, dues l o /\
    mirror1 l = (o, SExit 1) /\
    (forall c m, mirror1 (l ++ mkW c KDisc m :: rest) = (o, SExit 0)) /\
    (forall c, mirror1 (l ++ mkW c KData [] :: rest) = (o, SErr EIndex)).
Proof.
  intros l rest F. induction F as [|w t G F (o & D & E1 & E2 & E3)].
  - exists []. split; [constructor|]. split; [reflexivity|]. split; reflexivity.
  - destruct (go w G) as (oa & U & S). exists (match oa with Some a => [(w_conn w, a)] | None => [] end ++ o). split.
    + destruct oa as [a|]; cbn [app]; [apply dues_some|apply dues_none]; assumption.
    + split; [rewrite S, E1; reflexivity|]. split.
      * intros c m. cbn [app]. rewrite S, E2. reflexivity.
      * intros c. cbn [app]. rewrite S, E3. reflexivity.
Qed.
Print Assumptions mirror1_serves.

(** Every run is one of these. *)
Theorem mirror1_runs : forall l, Forall goes_on l \/
  exists l1 w rest, l = l1 ++ w :: rest /\ Forall goes_on l1 /\
    ((exists c m, w = mkW c KDisc m) \/ (exists c, w = mkW c KData [])).
Proof.
  induction l as [|w t IH]; [left; constructor|].
  assert (W : goes_on w \/ (exists c m, w = mkW c KDisc m) \/ (exists c, w = mkW c KData [])).
  { destruct w as [c k m]. destruct k; try (left; split; cbn [w_kind]; [|intros [? _]]; discriminate).
    - destruct m as [|f d]; [right; right; exists c; reflexivity|]. left. split; cbn [w_kind w_data]; [|intros [_ ?]]; discriminate.
    - right. left. exists c, m. reflexivity. }
  destruct W as [G|B].
  - destruct IH as [F|(l1 & x & rest & -> & F & B)]; [left; constructor; assumption|].
    right. exists (w :: l1), x, rest. split; [reflexivity|]. split; [constructor; assumption|exact B].
  - right. exists [], w, t. split; [reflexivity|]. split; [constructor|exact B].
Qed.
Print Assumptions mirror1_runs.

(** Connections do not disturb one another before the first disconnect: what is asked on
    one is what would be asked if its items came alone. *)
Theorem mirror1_apart : forall l c, Forall goes_on l ->
  filter (fun p => fst p =? c) (fst (mirror1 l)) = fst (mirror1 (filter (fun w => w_conn w =? c) l)).
Proof.
  intros l c F. induction F as [|w t G F IH]; [reflexivity|].
  destruct (go w G) as (oa & _ & S). rewrite S. cbn [fst filter]. rewrite filter_app, IH.
  destruct (w_conn w =? c) eqn:E.
  - rewrite S. cbn [fst]. f_equal. destruct oa as [a|]; cbn [filter fst]; [rewrite E|]; reflexivity.
  - destruct oa as [a|]; cbn [filter fst app]; [rewrite E|]; reflexivity.
Qed.
Print Assumptions mirror1_apart.

(** The disconnect of one connection ends the program also for the others: data of
    connection 2 that follow are not answered. *)
Theorem mirror1_others_refuted :
  mirror1 [mkW 1 KConnect []; mkW 2 KConnect []; mkW 1 KDisc []; mkW 2 KData [0; 7]] =
    ([(1, QAccept [255; 255]); (2, QAccept [255; 255])], SExit 0).
Proof. reflexivity. Qed.
Print Assumptions mirror1_others_refuted.

(** * All three *)
(** A client that connects, sends data with at least one byte each, and disconnects gets
    the same from each program (from the third if the name of its node is known), and the
    same as from the module (modules/mirror.py). *)
Definition talks (ds : list (list Z)) : list (kind * list Z) :=
  (KConnect, []) :: (KRun, []) :: map (fun d => (KData, d)) ds ++ [(KDisc, [])].
Theorem mirror_same : forall ds bs c, Forall2 echo ds bs ->
  let asks := QAccept [255; 255] :: map QData bs in
  mirror2 (talks ds) = (asks, SExit 0) /\
  mirror3 true (talks ds) = (asks, SExit 0) /\
  mirror1 (map (fun p => mkW c (fst p) (snd p)) (talks ds)) = (map (fun a => (c, a)) asks, SExit 0) /\
  mirror_accept = [255; 255] /\ Forall2 (fun d b => mirror_data d = Ok b) ds bs.
Proof.
  intros ds bs c F asks.
  assert (R : forall three, reflect three (map (fun d => (KData, d)) ds ++ [(KDisc, [])]) = (map QData bs, SExit 0)).
  { intros three. induction F as [|d b ds bs E F IH]; [reflexivity|]. cbn [map app reflect].
    apply reply_echo in E. rewrite E, IH. reflexivity. }
  assert (M : mirror1 (map (fun p => mkW c (fst p) (snd p)) (map (fun d => (KData, d)) ds ++ [(KDisc, [])])) = (map (fun a => (c, a)) (map QData bs), SExit 0)).
  { clear R asks. induction F as [|d b ds bs E F IH]; [reflexivity|]. cbn [map app mirror1 w_kind w_data w_conn fst snd].
    apply reply_echo in E. rewrite E, IH. reflexivity. }
  unfold asks, talks. repeat split.
  - cbn [mirror2 accepted]. rewrite R. reflexivity.
  - cbn [mirror3 accepted]. rewrite R. reflexivity.
  - cbn [map mirror1 w_kind w_conn fst snd]. rewrite M. reflexivity.
  - clear R M asks. induction F as [|d b ds bs E F IH]; constructor; [|exact IH].
    destruct E as [d|f d N]; cbn [mirror_data]; [reflexivity|]. apply Z.eqb_neq in N. rewrite N. reflexivity.
Qed.
Print Assumptions mirror_same.

(** A client of a node whose name is not known gets nothing from the third program, not
    even the answer to its connect: it ends with a TypeError. *)
Theorem mirror3_unnamed_refuted : forall ds, mirror3 false (talks ds) = ([], SErr EType).
Proof. reflexivity. Qed.
Print Assumptions mirror3_unnamed_refuted.

(** Where the programs differ: at an item of another type, after data that were answered,
    the first goes on, the second exits with 2 and the third aborts the connection. *)
Theorem mirror_differ : forall ds bs m rest c, Forall2 echo ds bs ->
  let l := (KConnect, []) :: (KRun, []) :: map (fun d => (KData, d)) ds ++ (KOther, m) :: rest in
  mirror2 l = (QAccept [255; 255] :: map QData bs, SExit 2) /\
  mirror3 true l = (QAccept [255; 255] :: map QData bs ++ [QAbort], SExit 2) /\
  mirror1 (map (fun p => mkW c (fst p) (snd p)) l) =
    (let '(o, s) := mirror1 (map (fun p => mkW c (fst p) (snd p)) rest) in
     ((c, QAccept [255; 255]) :: map (fun b => (c, QData b)) bs ++ o, s)).
Proof.
  intros ds bs m rest c F l.
  assert (R : forall three, reflect three (map (fun d => (KData, d)) ds ++ (KOther, m) :: rest) = (map QData bs ++ (if three then [QAbort] else []), SExit 2)).
  { intros three. clear l. induction F as [|d b ds bs E F IH]; [reflexivity|]. cbn [map app reflect].
    apply reply_echo in E. rewrite E, IH. reflexivity. }
  assert (M : mirror1 (map (fun p => mkW c (fst p) (snd p)) (map (fun d => (KData, d)) ds ++ (KOther, m) :: rest)) =
    (let '(o, s) := mirror1 (map (fun p => mkW c (fst p) (snd p)) rest) in (map (fun b => (c, QData b)) bs ++ o, s))).
  { clear R l. induction F as [|d b ds bs E F IH].
    - cbn [map app mirror1 w_kind fst]. destruct (mirror1 (map (fun p => mkW c (fst p) (snd p)) rest)). reflexivity.
    - cbn [map app mirror1 w_kind w_data w_conn fst snd]. apply reply_echo in E. rewrite E, IH. destruct (mirror1 (map (fun p => mkW c (fst p) (snd p)) rest)). reflexivity. }
  unfold l. repeat split.
  - cbn [mirror2 accepted]. rewrite R, app_nil_r. reflexivity.
  - cbn [mirror3 accepted]. rewrite R. reflexivity.
  - cbn [map mirror1 w_kind w_conn fst snd]. rewrite M. destruct (mirror1 (map (fun p => mkW c (fst p) (snd p)) rest)). reflexivity.
Qed.
Print Assumptions mirror_differ.

(** The beginning: nothing is asked of a connection whose first item is no connect, and
    nothing is answered before it runs. *)
Theorem mirror_start : forall k m t, k <> KConnect ->
  mirror2 ((k, m) :: t) = ([], SErr EAssert) /\ (forall n, mirror3 n ((k, m) :: t) = ([], SErr EAssert)) /\
  (k <> KRun -> forall m0, mirror2 ((KConnect, m0) :: (k, m) :: t) = ([QAccept [255; 255]], SClosed) /\
     mirror3 true ((KConnect, m0) :: (k, m) :: t) = ([QAccept [255; 255]], SClosed)).
Proof. intros k m t N. destruct k; try congruence; repeat split; try congruence; intros; reflexivity. Qed.
Print Assumptions mirror_start.

(** At the end of the input the second program has an EOFError and the third waits; empty
    data are an IndexError in both. *)
Theorem mirror_stops : forall ds bs rest, Forall2 echo ds bs ->
  let l := (KConnect, []) :: (KRun, []) :: map (fun d => (KData, d)) ds in
  let asks := QAccept [255; 255] :: map QData bs in
  mirror2 l = (asks, SEof) /\ mirror3 true l = (asks, SWait) /\
  mirror2 (l ++ (KData, []) :: rest) = (asks, SErr EIndex) /\
  mirror3 true (l ++ (KData, []) :: rest) = (asks, SErr EIndex) /\
  mirror2 [] = ([], SEof) /\ (forall n, mirror3 n [] = ([], SWait)) /\
  mirror2 [(KConnect, [])] = ([QAccept [255; 255]], SEof) /\
  mirror3 true [(KConnect, [])] = ([QAccept [255; 255]], SWait).
Proof.
  intros ds bs rest F l asks.
  assert (R : forall three, reflect three (map (fun d => (KData, d)) ds) = (map QData bs, if three then SWait else SEof)).
  { intros three. clear l asks. induction F as [|d b ds bs E F IH]; [reflexivity|]. cbn [map reflect].
    apply reply_echo in E. rewrite E, IH. reflexivity. }
  assert (R2 : forall three, reflect three (map (fun d => (KData, d)) ds ++ (KData, []) :: rest) = (map QData bs, SErr EIndex)).
  { intros three. clear l asks R. induction F as [|d b ds bs E F IH]; [reflexivity|]. cbn [map app reflect].
    apply reply_echo in E. rewrite E, IH. reflexivity. }
  unfold l, asks. cbn [app mirror2 mirror3 accepted]. rewrite !R, !R2. repeat split.
Qed.
Print Assumptions mirror_stops.

(** * A concrete case *)
Example mirror_ex :
  let l := [mkW 5 KConnect []; mkW 6 KConnect []; mkW 5 KRun []; mkW 5 KData [0; 8; 9]; mkW 6 KOther [1]; mkW 6 KData [3; 1]] in
  Forall goes_on l /\
  mirror1 (l ++ [mkW 5 KDisc []]) = ([(5, QAccept [255; 255]); (6, QAccept [255; 255]); (5, QData [1; 8; 9]); (6, QData [255])], SExit 0) /\
  Forall2 echo [[0; 8; 9]; [3; 1]; [0]] [[1; 8; 9]; [255]; [1]].
Proof.
  split; [repeat constructor; cbn [w_kind w_data]; try discriminate; intros [? ?]; discriminate|].
  split; [reflexivity|]. repeat constructor; lia.
Qed.
