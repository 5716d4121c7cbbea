(** Pages of the monitor: html.py.  Text is a list of character codes. *)
From Coq Require Import String Ascii.
From Verif Require Import Base AddrModel.
Local Open Scope list_scope.

Definition lit (s : string) : list Z := map (fun a => Z.of_nat (nat_of_ascii a)) (list_ascii_of_string s).
(** wraphtml, 15-25: an element with its tag, attributes, the separator of its contents and
    the contents; a string; or two lines, the only way in which detailrow differs. *)
Inductive html := Str (s : list Z) | Node (tag attrs sep : list Z) (cs : list html) | Two (a b : html).
Fixpoint joins (sep : list Z) (l : list (list Z)) : list Z :=
  match l with [] => [] | [x] => x | x :: t => x ++ sep ++ joins sep t end.
(** __str__, 22-25, 51-52 and 105-111. *)
Fixpoint show (h : html) : list Z :=
  match h with
  | Str s => s
  | Node tag attrs sep cs => [60] ++ tag ++ attrs ++ [62] ++ joins sep (map show cs) ++ [60; 47] ++ tag ++ [62]
  | Two a b => show a ++ [10] ++ show b
  end.
(** cell and hcell, 39-54: attributes are the alignment and then the markup. *)
Definition top_align : list Z := lit " valign=""top"" ".
Definition cell (c : html) (markup : list Z) : html := Node (lit "td") (top_align ++ markup) [] [c].
Definition hcell (c : html) : html := Node (lit "th") top_align [] [c].
(** wrap1, 27-30: strings get a cell, elements are taken as they are. *)
Definition wrap1 (cls : html -> html) (c : html) : html := match c with Str _ => cls c | _ => c end.
(** trow and thdr, 56-65; drow, 67-70. *)
Definition trow (cs : list html) : html := Node (lit "tr") [] [] (map (wrap1 (fun c => cell c [])) cs).
Definition thdr (cs : list html) : html := Node (lit "tr") [] [] (map (wrap1 hcell) cs).
Definition drow (r : html * html) : html :=
  Node (lit "tr") [] [] [cell (fst r) (lit "class=""td-col1"""); cell (snd r) (lit "class=""td-col2""")].
(** table, 72-84, with the header and rows as sequences; dtable, 86-91. *)
Definition table (header : list html) (data : list (list html)) : html :=
  Node (lit "table") [] [10] (thdr header :: map trow data).
Definition dtable (data : list (html * html)) : html :=
  Node (lit "table") (lit " class=""tb-details""") [10] (Str [] :: map drow data).
(** detailrow, 93-111: the cells (there is at least one) and the details. *)
Definition detailrow (c0 : html) (cs : list html) (extra : list (html * html)) : html :=
  match extra with
  | [] => trow (c0 :: cs)
  | _ => Two (trow (cell c0 (lit "rowspan=""2""") :: cs))
             (Node (lit "tr") [] [] [Node (lit "td")
                (lit " colspan=""" ++ str10 (zlen (c0 :: cs)) ++ lit """ class=""details""") [] [dtable extra]])
  end.
Definition detail_table (header : list html) (data : list (html * list html * list (html * html))) : html :=
  Node (lit "table") [] [10] (thdr header :: map (fun r => let '(c0, cs, x) := r in detailrow c0 cs x) data).
(** lines, 116-119; div with a class, 121-136; section, 152-157, with its tag; detail_section,
    168-170; textsection, 172-174. *)
Definition lines (l : list html) : html := Node (lit "p") [] (lit "<br>" ++ [10]) l.
Definition div (cls : list Z) (l : list html) : html := Node (lit "div") (lit " class=""" ++ cls ++ [34]) [10] l.
Definition section (hdr : list Z) (title : list Z) (body : html) : html :=
  div (lit "section") [Node hdr [] [] [Str title]; body].
Definition detail_section (title : list Z) header data : html := section (lit "h3") title (detail_table header data).
Definition textsection (title : list Z) (l : list html) : html := section (lit "h3") title (lines l).
(** doc.__str__, 198-219, without mobile and hdradd. *)
Definition doc (title : list Z) (top middle bottom : html) : list Z :=
  lit "<html><head>" ++ [10] ++ lit "  <meta charset=""UTF-8"">" ++ [10] ++ lit "  <title>" ++ title ++ lit "</title>" ++ [10] ++
  lit "  <link href=""/resources/decnet.css"" rel=""stylesheet"" type=""text/css"">" ++ [10] ++ lit "  " ++ [10] ++
  lit "</head>" ++ [10] ++ lit "<body>" ++ [10] ++ lit "<div class=""flex-page"">" ++ [10] ++ lit "<div class=""top"">" ++
  show top ++ lit "</div>" ++ [10] ++ show middle ++ [10] ++ show bottom ++ [10] ++ lit "</body></html>" ++ [10].
