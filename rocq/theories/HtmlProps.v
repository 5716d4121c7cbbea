(** Elements of the pages nest (C88). *)
From Coq Require Import String.
From Verif Require Import Base AddrModel HtmlModel.
From Verif Require AddrProps.
Local Open Scope list_scope.

(** * Specification: a reader of tags, character by character *)
(** Outside a tag, or in one with what was read of it; and the open elements.  None: an
    element was closed that is not the innermost open one. *)
Inductive mode := MOut | MTag (acc : list Z).
Definition rd := option (mode * list (list Z)).
Fixpoint word (l : list Z) : list Z := match l with [] => [] | c :: t => if c =? 32 then [] else c :: word t end.
Definition same (a b : list Z) : bool := if list_eq_dec Z.eq_dec a b then true else false.
(** Elements without an end tag. *)
Definition void (n : list Z) : bool := existsb (same n) [lit "br"; lit "meta"; lit "link"].
Definition tag_end (acc : list Z) (st : list (list Z)) : rd :=
  match acc with
  | 47 :: n => match st with x :: st => if same x n then Some (MOut, st) else None | [] => None end
  | _ => Some (MOut, if void (word acc) then st else word acc :: st)
  end.
Definition rstep (s : rd) (c : Z) : rd :=
  match s with
  | None => None
  | Some (MOut, st) => if c =? 60 then Some (MTag [], st) else Some (MOut, st)
  | Some (MTag acc, st) => if c =? 62 then tag_end acc st else Some (MTag (acc ++ [c]), st)
  end.
Definition rdall (t : list Z) (s : rd) : rd := fold_left rstep t s.
(** Text that nests: all that it opens it closes. *)
Definition nests (t : list Z) : Prop := forall st, rdall t (Some (MOut, st)) = Some (MOut, st).
(** A string without markup. *)
Definition plain (s : list Z) : Prop := ~ In 60 s.

(** * Lemmas *)
Lemma rd_app : forall a b s, rdall (a ++ b) s = rdall b (rdall a s).
Proof. intros. unfold rdall. apply fold_left_app. Qed.
Lemma nests_app : forall a b, nests a -> nests b -> nests (a ++ b).
Proof. intros a b A B st. rewrite rd_app, A. apply B. Qed.
Lemma nests_nil : nests [].
Proof. intros st. reflexivity. Qed.
Lemma plain_nests : forall s, plain s -> nests s.
Proof.
  intros s P st. induction s as [|c t IH]; [reflexivity|]. cbn [rdall fold_left rstep].
  destruct (Z.eqb_spec c 60) as [->|N]; [destruct P; left; reflexivity|]. apply IH. intros I. apply P. right. exact I.
Qed.
Lemma in_tag : forall s acc st, ~ In 62 s -> rdall s (Some (MTag acc, st)) = Some (MTag (acc ++ s), st).
Proof.
  induction s as [|c t IH]; intros acc st N; [rewrite app_nil_r; reflexivity|]. cbn [rdall fold_left rstep].
  destruct (Z.eqb_spec c 62) as [->|D]; [destruct N; left; reflexivity|].
  change (fold_left rstep t ?s) with (rdall t s). rewrite IH by (intros I; apply N; right; exact I). rewrite <- app_assoc. reflexivity.
Qed.
Lemma one_tag : forall s st, ~ In 62 s -> rdall ([60] ++ s ++ [62]) (Some (MOut, st)) = tag_end s st.
Proof.
  intros s st N. rewrite !rd_app. change (rdall [60] (Some (MOut, st))) with (Some (MTag [], st)). rewrite in_tag by exact N. reflexivity.
Qed.
Lemma same_refl : forall a, same a a = true.
Proof. intros a. unfold same. destruct (list_eq_dec _ a a); congruence. Qed.
(** Tags as html.py has them: a word, not empty, that has an end tag; attributes begin with
    a space. *)
Definition goodtag (n a : list Z) : Prop :=
  (exists c t, n = c :: t /\ c <> 47) /\ ~ In 32 n /\ ~ In 62 n /\ void n = false /\ ~ In 62 a /\ (a = [] \/ exists b, a = 32 :: b).
Lemma word_good : forall n a, ~ In 32 n -> (a = [] \/ exists b, a = 32 :: b) -> word (n ++ a) = n.
Proof.
  intros n a N A. induction n as [|c t IH]; cbn [app].
  - destruct A as [->|(b & ->)]; reflexivity.
  - cbn [word]. destruct (Z.eqb_spec c 32) as [->|D]; [destruct N; left; reflexivity|]. rewrite IH; [reflexivity|]. intros I. apply N. right. exact I.
Qed.
Lemma tag_open : forall n a st, goodtag n a -> tag_end (n ++ a) st = Some (MOut, n :: st).
Proof.
  intros n a st ((c & t & E & D) & S & _ & V & _ & A).
  assert (W := word_good n a S A). subst n. cbn [app] in *. unfold tag_end. rewrite W, V.
  repeat (match goal with |- context [match ?x with _ => _ end] => is_var x; destruct x end; try reflexivity); congruence.
Qed.
Lemma elem_nests : forall n a body, goodtag n a -> nests body -> nests ([60] ++ n ++ a ++ [62] ++ body ++ [60; 47] ++ n ++ [62]).
Proof.
  intros n a body G B st.
  replace ([60] ++ n ++ a ++ [62] ++ body ++ [60; 47] ++ n ++ [62]) with (([60] ++ (n ++ a) ++ [62]) ++ body ++ ([60] ++ (47 :: n) ++ [62])).
  2:{ rewrite <- !app_assoc. reflexivity. }
  assert (N := G). destruct N as (_ & _ & N1 & _ & N2 & _).
  rewrite rd_app, one_tag by (rewrite in_app_iff; tauto). rewrite tag_open by exact G.
  rewrite rd_app, B, one_tag by (intros [I|I]; [discriminate|tauto]). cbn [tag_end]. rewrite same_refl. reflexivity.
Qed.
Lemma joins_nests : forall sep l, nests sep -> Forall nests l -> nests (joins sep l).
Proof.
  intros sep l S F. induction F as [|x t X F IH]; [apply nests_nil|]. destruct t as [|y t]; [exact X|].
  change (joins sep (x :: y :: t)) with (x ++ sep ++ joins sep (y :: t)). apply nests_app; [exact X|]. apply nests_app; assumption.
Qed.
Lemma node_nests : forall n a sep cs, goodtag n a -> nests sep -> Forall (fun c => nests (show c)) cs -> nests (show (Node n a sep cs)).
Proof.
  intros n a sep cs G S F. cbn [show]. apply elem_nests; [exact G|]. apply joins_nests; [exact S|]. rewrite Forall_map. exact F.
Qed.
Ltac notin := let X := fresh "X" in cbn; intros X; repeat (destruct X as [X|X]; [discriminate X|]); exact X.
Ltac good := split; [eexists; eexists; split; [reflexivity|discriminate]|]; split; [notin|]; split; [notin|]; split; [reflexivity|]; split; [notin|]; first [left; reflexivity | right; eexists; reflexivity].
Lemma cell_nests : forall c m, ~ In 62 m -> nests (show c) -> nests (show (cell c m)).
Proof.
  intros c m M C. unfold cell. apply node_nests; [|apply nests_nil|constructor; [exact C|constructor]].
  split; [eexists; eexists; split; [reflexivity|discriminate]|]. split; [notin|]. split; [notin|]. split; [reflexivity|]. split.
  - rewrite in_app_iff. intros [I|I]; [|exact (M I)]. revert I. notin.
  - right. eexists. reflexivity.
Qed.
Lemma hcell_nests : forall c, nests (show c) -> nests (show (hcell c)).
Proof. intros c C. apply node_nests; [good|apply nests_nil|constructor; [exact C|constructor]]. Qed.
Lemma row_nests : forall cls cs, (forall c, nests (show c) -> nests (show (cls c))) -> Forall (fun c => nests (show c)) cs ->
  nests (show (Node (lit "tr") [] [] (map (wrap1 cls) cs))).
Proof.
  intros cls cs H F. apply node_nests; [good|apply nests_nil|]. rewrite Forall_map. apply (Forall_impl _ (P := fun c => nests (show c))); [|exact F].
  intros c C. destruct c; cbn [wrap1]; [apply H|..]; exact C.
Qed.
Lemma trow_nests : forall cs, Forall (fun c => nests (show c)) cs -> nests (show (trow cs)).
Proof. intros cs F. apply row_nests; [|exact F]. intros c C. apply cell_nests; [notin|exact C]. Qed.
Lemma thdr_nests : forall cs, Forall (fun c => nests (show c)) cs -> nests (show (thdr cs)).
Proof. intros cs F. apply row_nests; [|exact F]. exact hcell_nests. Qed.
Lemma nl_nests : nests [10].
Proof. intros st. reflexivity. Qed.

(** * Theorems *)
(** A table nests if what is in its cells does. *)
Theorem html_table : forall hd data, Forall (fun c => nests (show c)) hd -> Forall (Forall (fun c => nests (show c))) data -> nests (show (table hd data)).
Proof.
  intros hd data H D. apply node_nests; [good|apply nl_nests|]. constructor; [apply thdr_nests; exact H|].
  rewrite Forall_map. apply (Forall_impl _ (P := Forall (fun c => nests (show c)))); [exact trow_nests|exact D].
Qed.
Print Assumptions html_table.

(** Digits of a number are no end of a tag. *)
Lemma digits_no : forall v, 0 <= v -> ~ In 62 (str10 v).
Proof.
  intros v V I. destruct (AddrProps.str10_spec v V) as [[_ F] _]. rewrite Forall_forall in F. specialize (F 62 I). unfold AddrProps.digit in F. lia.
Qed.
Lemma drow_nests : forall r, nests (show (fst r)) -> nests (show (snd r)) -> nests (show (drow r)).
Proof.
  intros r A B. apply node_nests; [good|apply nests_nil|]. repeat constructor; apply cell_nests; try assumption; notin.
Qed.
(** A table with details nests likewise. *)
Definition rowok (r : html * list html * list (html * html)) : Prop :=
  let '(c0, cs, x) := r in nests (show c0) /\ Forall (fun c => nests (show c)) cs /\ Forall (fun p => nests (show (fst p)) /\ nests (show (snd p))) x.
Lemma detail_nests : forall c0 cs x, rowok (c0, cs, x) -> nests (show (detailrow c0 cs x)).
Proof.
  intros c0 cs x (A & B & C). unfold detailrow. destruct x as [|p x]; [apply trow_nests; constructor; assumption|].
  cbn [show]. apply nests_app; [|apply nests_app; [apply nl_nests|]].
  - apply trow_nests. constructor; [|exact B]. apply cell_nests; [notin|exact A].
  - apply node_nests; [good|apply nests_nil|]. constructor; [|constructor].
    apply node_nests; [|apply nests_nil|].
    + split; [eexists; eexists; split; [reflexivity|discriminate]|]. split; [notin|]. split; [notin|]. split; [reflexivity|]. split.
      * rewrite !in_app_iff. intros [I|[I|I]]; [revert I; notin|revert I; apply digits_no; unfold zlen; lia|revert I; notin].
      * right. eexists. reflexivity.
    + constructor; [|constructor]. apply node_nests; [good|apply nl_nests|]. constructor; [apply nests_nil|].
      rewrite Forall_map. apply (Forall_impl _ (P := fun p => nests (show (fst p)) /\ nests (show (snd p)))); [|exact C].
      intros q [E F]. apply drow_nests; assumption.
Qed.
Theorem html_details : forall hd data, Forall (fun c => nests (show c)) hd -> Forall rowok data -> nests (show (detail_table hd data)).
Proof.
  intros hd data H D. apply node_nests; [good|apply nl_nests|]. constructor; [apply thdr_nests; exact H|].
  rewrite Forall_map. apply (Forall_impl _ (P := rowok)); [|exact D]. intros [[c0 cs] x] R. apply detail_nests. exact R.
Qed.
Print Assumptions html_details.
(** Sections: a title without markup, and a body of a table with details or of lines. *)
Theorem html_sections : forall title hd data l, plain title ->
  Forall (fun c => nests (show c)) hd -> Forall rowok data -> Forall (fun c => nests (show c)) l ->
  nests (show (detail_section title hd data)) /\ nests (show (textsection title l)).
Proof.
  intros title hd data l T H D L.
  assert (S : forall b, nests (show b) -> nests (show (section (lit "h3") title b))).
  { intros b B. apply node_nests; [good|apply nl_nests|]. constructor; [|constructor; [exact B|constructor]].
    apply node_nests; [good|apply nests_nil|]. constructor; [apply plain_nests; exact T|constructor]. }
  split; apply S; [apply html_details; assumption|]. apply node_nests; [good| |exact L]. intros st. reflexivity.
Qed.
Print Assumptions html_sections.
(** What is put in a table is on the page: the header and then each row on its own line,
    each string in its own cell, in order. *)
Definition boxed (tag s : list Z) : list Z := lit "<" ++ tag ++ lit " valign=""top"" >" ++ s ++ lit "</" ++ tag ++ lit ">".
Definition rowed (tag : list Z) (l : list (list Z)) : list Z := lit "<tr>" ++ concat (map (boxed tag) l) ++ lit "</tr>".
Lemma joins_nil : forall l, joins [] l = concat l.
Proof. induction l as [|x [|y t] IH]; [reflexivity|cbn [joins concat]; rewrite app_nil_r; reflexivity|]. change (joins [] (x :: y :: t)) with (x ++ joins [] (y :: t)). rewrite IH. reflexivity. Qed.
Lemma joins_sep : forall sep x l, joins sep (x :: l) = x ++ concat (map (fun y => sep ++ y) l).
Proof. intros sep x l. revert x. induction l as [|y t IH]; intros x; [cbn [joins map concat]; rewrite app_nil_r; reflexivity|]. change (joins sep (x :: y :: t)) with (x ++ sep ++ joins sep (y :: t)). rewrite IH. cbn [map concat]. rewrite <- app_assoc. reflexivity. Qed.
Theorem html_shows : forall hd data,
  show (table (map Str hd) (map (map Str) data)) =
  lit "<table>" ++ rowed (lit "th") hd ++ concat (map (fun r => 10 :: rowed (lit "td") r) data) ++ lit "</table>".
Proof.
  assert (R : forall cls tag, (forall s, show (cls (Str s)) = boxed tag s) -> forall l, show (Node (lit "tr") [] [] (map (wrap1 cls) (map Str l))) = rowed tag l).
  { intros cls tag H l. cbn [show]. rewrite joins_nil, !map_map. unfold rowed. cbn [wrap1].
    rewrite (map_ext (fun x => show (cls (Str x))) (boxed tag)) by exact H. reflexivity. }
  assert (T : forall l, show (thdr (map Str l)) = rowed (lit "th") l) by (intros l; apply R; intros s; reflexivity).
  assert (D : forall l, show (trow (map Str l)) = rowed (lit "td") l) by (intros l; apply R; intros s; reflexivity).
  intros hd data. unfold table. cbn [show map]. rewrite joins_sep, T, !map_map.
  rewrite (map_ext (fun x => [10] ++ show (trow (map Str x))) (fun r => 10 :: rowed (lit "td") r)) by (intros r; rewrite D; reflexivity).
  rewrite <- !app_assoc. reflexivity.
Qed.
Print Assumptions html_shows.
(** Nothing is quoted: for a string with markup this is false.  A string may close its
    cell, or hold a script, which is then on the page. *)
Theorem html_quote_refuted :
  ~ nests (show (table [] [[Str (lit "</td>")]])) /\
  (forall s t, exists a b, show (trow [Str (s ++ lit "<script>" ++ t)]) = a ++ s ++ lit "<script>" ++ t ++ b).
Proof.
  split; [intros N; specialize (N []); vm_compute in N; discriminate|].
  intros s t. exists (lit "<tr><td valign=""top"" >"), (lit "</td></tr>"). cbn [trow map wrap1 cell show joins]. rewrite <- !app_assoc. reflexivity.
Qed.
Print Assumptions html_quote_refuted.
(** No page nests, whatever is on it: the element flex-page is not closed. *)
Theorem html_doc_refuted : forall title top middle bottom, plain title ->
  nests (show top) -> nests (show middle) -> nests (show bottom) ->
  rdall (doc title top middle bottom) (Some (MOut, [])) = None.
Proof.
  intros title top middle bottom T A B C. apply plain_nests in T. unfold doc.
  rewrite (app_assoc (lit "<html><head>")), (app_assoc (lit "<html><head>" ++ [10])), (app_assoc ((lit "<html><head>" ++ [10]) ++ _)), (app_assoc (((lit "<html><head>" ++ [10]) ++ _) ++ _)).
  rewrite rd_app.
  match goal with |- rdall _ (rdall ?p ?x) = _ => let y := eval vm_compute in (rdall p x) in replace (rdall p x) with y by (vm_compute; reflexivity) end.
  rewrite rd_app, T.
  repeat match goal with
  | |- rdall (show _ ++ _) _ = _ => fail 1
  | |- rdall (?a ++ ?b) ?x = _ => rewrite (rd_app a b x); let y := eval vm_compute in (rdall a x) in replace (rdall a x) with y by (vm_compute; reflexivity)
  end.
  rewrite rd_app, A.
  repeat match goal with
  | |- rdall (show _ ++ _) _ = _ => fail 1
  | |- rdall (?a ++ ?b) ?x = _ => rewrite (rd_app a b x); let y := eval vm_compute in (rdall a x) in replace (rdall a x) with y by (vm_compute; reflexivity)
  end.
  rewrite rd_app, B, rd_app, nl_nests, rd_app, C. vm_compute. reflexivity.
Qed.
Print Assumptions html_doc_refuted.
(** The details of a row are put in a cell that spans as many columns as the row has,
    although its first column is taken by the cell above. *)
Theorem html_span_refuted : forall c0 cs p x, exists l1 body,
  detailrow c0 cs (p :: x) = Two (trow (cell c0 (lit "rowspan=""2""") :: cs)) (Node (lit "tr") [] [] [Node (lit "td") l1 [] body]) /\
  l1 = lit " colspan=""" ++ str10 (1 + zlen cs) ++ lit """ class=""details""".
Proof.
  intros c0 cs p x. eexists. eexists. split; [reflexivity|]. do 3 f_equal. unfold zlen. cbn [length]. lia.
Qed.
Print Assumptions html_span_refuted.

(** * A concrete case *)
Example html_ex :
  let r := (Str (lit "1.1"), [Str (lit "up")], [(Str (lit "Cost"), Str (lit "4"))]) in
  rowok r /\ plain (lit "Nodes") /\ nests (show (detail_section (lit "Nodes") [Str (lit "Node"); Str (lit "State")] [r])).
Proof.
  assert (R : rowok (Str (lit "1.1"), [Str (lit "up")], [(Str (lit "Cost"), Str (lit "4"))])) by (cbn [rowok]; repeat constructor; apply plain_nests; notin).
  split; [exact R|]. split; [notin|]. refine (proj1 (html_sections (lit "Nodes") _ _ [] _ _ _ _)); [notin| |constructor; [exact R|constructor]|constructor].
  repeat constructor; apply plain_nests; notin.
Qed.
