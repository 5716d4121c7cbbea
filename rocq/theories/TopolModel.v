(** The Phase II topology server: modules/topol.py. *)
From Coq Require Import Permutation.
From Verif Require Import Base.

Notation name := (list Z).
(** str.upper, of ASCII. *)
Definition upper (s : name) : name := map (fun c => if (97 <=? c) && (c <=? 122) then c - 32 else c) s.
(** str.split by commas. *)
Fixpoint split (s : list Z) : list name :=
  match s with
  | [] => [[]]
  | c :: t => if c =? 44 then [] :: split t
              else match split t with w :: ws => (c :: w) :: ws | [] => [[c]] end
  end.
(** __init__, 65-95: the argument of the object if there is one (and not empty), names of the active nodes
    (empty if a node has none).  A set of strings has any order: [o]. *)
Definition names (o : list name -> list name) (arg : option (list Z)) (active : list name) : list name :=
  let a := match arg with Some s => map upper (split s) | None => [] end in
  let b := map upper (filter (fun n => match n with [] => false | _ => true end) active) in
  firstn 50 (o (nodup (list_eq_dec Z.eq_dec) (a ++ b))).
(** NodeEntry, 58-61: packet.A of at most 6 bytes (packet.py 137-146). *)
Definition node_entry (n : name) : res (list Z) :=
  if zlen n >? 6 then Err EOverflow else if forallb (fun c => (0 <=? c) && (c <=? 255)) n then Ok (1 :: zlen n :: n) else Err EValue.
(** The reply, 103-107: TopoHdr, TopoResp (43-56).  Nothing sets node_count, so it is the
    default of packet.B, 0 (common.py 186-189). *)
Fixpoint entries (l : list name) : res (list Z) :=
  match l with [] => Ok [] | n :: t => let* a := node_entry n in let* b := entries t in Ok (a ++ b) end.
Definition topo_reply (l : list name) : res (list Z) :=
  let* p := entries l in Ok ([2; 6; 1; 0; 0; 7; 0] ++ p).
