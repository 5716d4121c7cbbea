(** The node database: node.py 60-117 (Nodeinfo, LoopNode), 137-178 (Node, the
    dictionaries), 233-273 (addnodeinfo, addloopnodeinfo, nodeinfo), routing.py
    345-375 (executor name, loop nodes), nsp.py 1064-1078 (the destination of a
    connection).  Strings are lists of character codes. *)
From Verif Require Import Base Dict AddrModel.
From Verif Require ApiModel.

(** str.upper; ASCII letters only. *)
Definition upper := ApiModel.upper.
(** What packets are sent to: a node address, or a circuit (for loop nodes). *)
Inductive dest := DNode (n : Z) | DCirc (c : Z).
Definition dest_eqb (a b : dest) : bool :=
  match a, b with DNode x, DNode y => x =? y | DCirc x, DCirc y => x =? y | _, _ => false end.
(** A Nodeinfo or LoopNode object.  [i_ref] is its identity; the counters and
    the delay that NSP keeps in it are those of the object.  [i_circ] is set
    in loop nodes. *)
Record ninfo := mkI { i_ref : Z; i_addr : Z; i_name : list Z; i_circ : option Z;
                      i_over : option (list Z); i_iver : option (list Z) }.
(** get_dest 94-95, 117-119. *)
Definition get_dest (i : ninfo) : dest := match i_circ i with Some c => DCirc c | None => DNode (i_addr i) end.
(** The dictionaries nodeinfo_byname and nodeinfo_byid, and the number of
    objects made so far.  Simplification: a circuit is a number; that a circuit
    and an address are different keys is so because circuits compare by
    identity. *)
Record ndb := mkDb { d_name : dict (list Z) ninfo; d_id : dict dest ninfo; d_refs : Z }.
Definition ndb0 : ndb := mkDb [] [] 0.

(** A "node" entry of the configuration; the name is in upper case already
    (config.py nodename). *)
Record centry := mkCe { c_id : Z; c_name : list Z; c_over : option (list Z); c_iver : option (list Z) }.
(** [if c.outbound_verification]; the conversion to bytes keeps the codes.
    Simplification: characters above 255, on which it raises, do not occur. *)
Definition verif (v : option (list Z)) : option (list Z) := match v with Some [] => None | _ => v end.
(** Nodeinfo (c, area = area) and addnodeinfo, 66-83, 233-237. *)
Definition add_config (area : Z) (d : ndb) (c : centry) : res ndb :=
  let* a := nodeid (NInt (c_id c) None) false area in
  let i := mkI (d_refs d) a (c_name c) None (verif (c_over c)) (verif (c_iver c)) in
  Ok (mkDb (dset leqb (d_name d) (c_name c) i) (dset dest_eqb (d_id d) (DNode a) i) (d_refs d + 1)).
Fixpoint add_configs (area : Z) (d : ndb) (l : list centry) : res ndb :=
  match l with [] => Ok d | c :: t => let* d1 := add_config area d c in add_configs area d1 t end.

(** Arguments of nodeinfo: a string, or a number. *)
Inductive narg := AStr (s : list Z) | AInt (n : Z).
(** nodeinfo by number, 266-273. *)
Definition by_id (d : ndb) (n : Z) (add : bool) : res (ndb * ninfo) :=
  match dget dest_eqb (d_id d) (DNode n) with
  | Some i => Ok (d, i)
  | None =>
      let* a := nodeid (NInt n None) false 0 in
      let i := mkI (d_refs d) a [] None None None in
      Ok (mkDb (d_name d) (if add then dset dest_eqb (d_id d) (DNode a) i else d_id d) (d_refs d + 1), i)
  end.
(** nodeinfo 244-273. *)
Definition nodeinfo (d : ndb) (x : narg) (add : bool) : res (ndb * ninfo) :=
  match x with
  | AStr s =>
      match nodeid (NStr s) false 0 with
      | Ok n => by_id d n add
      | Err EValue => match dget leqb (d_name d) (upper s) with Some i => Ok (d, i) | None => Err EKey end
      | Err e => Err e
      end
  | AInt n => by_id d n add
  end.
(** addloopnodeinfo 239-243, called with the name in upper case (routing.py
    369-371). *)
Definition add_loop (d : ndb) (name : list Z) (circ : Z) : ndb :=
  let i := mkI (d_refs d) 0 (upper name) (Some circ) None None in
  mkDb (dset leqb (d_name d) (upper name) i) (dset dest_eqb (d_id d) (DCirc circ) i) (d_refs d + 1).

(** Node.__init__ 147-170, and the check of the executor's name in Router
    (routing.py 345-351): the executor's address and name. *)
Definition boot (phase rid : Z) (l : list centry) : res (ndb * Z * list Z) :=
  let me := if phase =? 4 then rid else nid_tid rid in
  let area := if phase =? 4 then me / 1024 else 0 in
  let* d := add_configs area ndb0 l in
  let* (d1, i) := nodeinfo d (AInt me) true in
  match i_name i with [] => Err EValue | n => Ok (d1, me, n) end.

(** nsp.py 1064-1078: the destination of an outgoing connection; KeyError
    stands for UnknownNode.  Nodeid (0) is the executor. *)
Definition connect_dest (d : ndb) (me : Z) (x : narg) : res (ndb * ninfo * dest) :=
  let is0 := match (match x with AStr s => nodeid (NStr s) false 0 | AInt n => nodeid (NInt n None) false 0 end) with
             | Ok v => v =? 0 | Err _ => false end in
  let* (d1, i) := nodeinfo d (if is0 then AInt me else x) true in
  Ok (d1, i, get_dest i).

(** What happens to the database while the node runs. *)
Inductive dbop := OLook (x : narg) (add : bool) | OLoop (name : list Z) (circ : Z) | OConn (x : narg).
(** An exception leaves the database as it was. *)
Definition dbstep (me : Z) (d : ndb) (o : dbop) : ndb :=
  match o with
  | OLook x add => match nodeinfo d x add with Ok (d1, _) => d1 | Err _ => d end
  | OLoop name circ => add_loop d name circ
  | OConn x => match connect_dest d me x with Ok (d1, _, _) => d1 | Err _ => d end
  end.
Definition dbrun (me : Z) (d : ndb) (l : list dbop) : ndb := fold_left (dbstep me) l d.
(** The nodes the API lists (node.py 210), in order. *)
Definition listing (d : ndb) : list ninfo := map snd (d_id d).
