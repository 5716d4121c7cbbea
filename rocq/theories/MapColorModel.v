(** Colours of places and paths on the network map: mapper.py 327-342 (MapLocation.color),
    399-406 and 438-468 (MapPath), 502-517 (draw, as far as whether and in which colour).
    Only the health of a node or adjacency (563-572, see MapScanModel) is kept of it. *)
From Coq Require Import Permutation.
From Verif Require Import Base.

(** H_GONE, H_FADE, H_DOWN, H_UP are 0 to 3 (65-68). *)
Inductive color := Gray | Red | Yellow | Green.
Definition count (h : Z) (l : list Z) : Z := zlen (filter (fun x => x =? h) l).
(** The table at the end of the two color methods; None is a path that is not drawn. *)
Definition table (gone : option color) (t : Z) : option color :=
  if t =? 0 then gone else if t =? 1 then Some Gray else if t =? 2 then Some Red else Some Green.
(** color, 327-338 and 454-468: max of an empty Counter is a ValueError. *)
Definition color_of (gone : option color) (l : list Z) : res (option color) :=
  match l with
  | [] => Err EValue
  | h :: r =>
      let t := fold_left Z.max r h in
      if (t =? 3) && negb (count 2 l =? 0) then
        if count 2 l <? count 3 l then Ok (Some Yellow) else Ok (Some Red)
      else Ok (table gone t)
  end.
Definition loc_color (l : list Z) : res (option color) := color_of (Some Gray) l.

(** * Paths *)
Notation pair_ := (Z * Z)%type.
Definition key (a b : Z) : pair_ := if a >? b then (b, a) else (a, b).
Definition key_eqb (k l : pair_) : bool := (fst k =? fst l) && (snd k =? snd l).
(** The dictionary conns, in the order of entry. *)
Fixpoint find (k : pair_) (c : list (pair_ * Z)) : option Z :=
  match c with [] => None | (l, h) :: t => if key_eqb l k then Some h else find k t end.
Fixpoint put (k : pair_) (h : Z) (c : list (pair_ * Z)) : list (pair_ * Z) :=
  match c with [] => [(k, h)] | (l, g) :: t => if key_eqb l k then (l, h) :: t else (l, g) :: put k h t end.
(** add, 438-452: of an adjacency between two nodes with health [h]. *)
Definition padd (c : list (pair_ * Z)) (x : Z * Z * Z) : list (pair_ * Z) :=
  let '(a, b, h) := x in
  let k := key a b in
  let oldh := match find k c with Some g => g | None => 0 end in
  if oldh <? h then put k h c else c.
Definition path (l : list (Z * Z * Z)) : list (pair_ * Z) := fold_left padd l [].
Definition path_color (l : list (Z * Z * Z)) : res (option color) := color_of None (map snd (path l)).
(** draw, 502-517: nothing if there is no text (actconns, 470-481, leaves out what is gone),
    then by the colour. *)
Definition draw (l : list (Z * Z * Z)) : res (option color) :=
  if forallb (fun h => h =? 0) (map snd (path l)) then Ok None else path_color l.
