(** The abbreviated keyword dictionary: i3dict.py 7-93. *)
From Verif Require Import Base Dict.

(** str.lower; ASCII letters only. *)
Definition lower1 (c : Z) : Z := if (65 <=? c) && (c <=? 90) then c + 32 else c.
Definition lower (s : list Z) : list Z := map lower1 s.
(** str.startswith. *)
Fixpoint startswith (s p : list Z) : bool :=
  match p, s with
  | [], _ => true
  | x :: p', y :: s' => (x =? y) && startswith s' p'
  | _ :: _, [] => false
  end.
(** The underlying dict: from three characters to the full key and value. *)
Definition i3dict (V : Type) := dict (list Z) (list Z * V).
(** __getitem__ (39-47). *)
Definition i3_get {V} (d : i3dict V) (key : list Z) : res V :=
  let keyl := lower key in
  match dget leqb d (upto 3 keyl) with
  | None => Err EKey
  | Some (k, v) => if startswith k keyl then Ok v else Err EKey
  end.
(** __setitem__ (49-51). *)
Definition i3_set {V} (d : i3dict V) (key : list Z) (v : V) : i3dict V :=
  let keyl := lower key in dset leqb d (upto 3 keyl) (keyl, v).
(** __delitem__ (32-37). *)
Definition i3_del {V} (d : i3dict V) (key : list Z) : res (i3dict V) :=
  let* _ := i3_get d key in Ok (ddel leqb d (lower (upto 3 key))).
(** __contains__ (25-30). *)
Definition i3_contains {V} (d : i3dict V) (key : list Z) : bool :=
  match i3_get d key with Ok _ => true | Err _ => false end.
(** setdefault (79-81): the name keyl is undefined. *)
Definition i3_setdefault {V} (d : i3dict V) (key : list Z) (v : V) : res V := Err EName.
(** i3eq on strings (83-86): [b] is expected to be lower case. *)
Definition i3eq (a b : list Z) : bool := startswith b (lower a).
(** i3eq on lists (87-92). *)
Fixpoint i3eq_zip (a b : list (list Z)) : bool :=
  match a, b with
  | x :: a', y :: b' => i3eq x y && i3eq_zip a' b'
  | _, _ => true
  end.
Definition i3eq_list (a b : list (list Z)) : bool :=
  if zlen a <? zlen b then false else i3eq_zip a b.
