(** The mapper's database: mapper.py 676-771 (Mapdata), 1488-1498 (mapnode), 1634-1730
    (dbupdate).  Names, places and owners are numbers (only compared), 0 the empty one. *)
From Verif Require Import Base.

(** MapNode, 610-618, with the attributes of MapItem, 536-537, and those that dbupdate
    sets, 1682-1687; None is an attribute that is None or not there. *)
Record entry := mkE {
  e_id : Z; e_name : Z; e_adj : list Z; e_seen : Z; e_down : Z; e_up : Z;
  e_loc : Z; e_type : option Z; e_ident : Z; e_owner : option Z; e_latlong : option Z }.
(** Mapdata, 677-683: dictionaries of objects; an object is its number in [d_heap]. *)
Record mapdb := mkDb { d_heap : nat -> entry; d_next : nat; d_nodes : Z -> option nat; d_names : Z -> option nat }.
Definition entry0 : entry := mkE 0 0 [] 0 0 0 0 None 0 None None.
Definition db0 : mapdb := mkDb (fun _ => entry0) 0 (fun _ => None) (fun _ => None).
Definition zset {A} (f : Z -> A) (k : Z) (v : A) : Z -> A := fun x => if x =? k then v else f x.
Definition nset {A} (f : nat -> A) (k : nat) (v : A) : nat -> A := fun x => if Nat.eqb x k then v else f x.
Definition keep {A} (new old : option A) : option A := match new with Some _ => new | None => old end.
(** The assignment of attributes, 698-700: all that are not None. *)
Definition merge (old e : entry) : entry :=
  mkE (e_id old) (e_name e) (e_adj e) (e_seen e) (e_down e) (e_up e) (e_loc e) (keep (e_type e) (e_type old)) (e_ident e)
      (keep (e_owner e) (e_owner old)) (keep (e_latlong e) (e_latlong old)).
(** The handler of KeyError, 705-718. *)
Definition addnew (d : mapdb) (r : nat) (e : entry) : mapdb :=
  let nodes := zset (d_nodes d) (e_id e) (Some r) in
  if e_name e =? 0 then mkDb (d_heap d) (d_next d) nodes (d_names d)
  else
    let nodes := match d_names d (e_name e) with Some o => zset nodes (e_id (d_heap d o)) None | None => nodes end in
    mkDb (d_heap d) (d_next d) nodes (zset (d_names d) (e_name e) (Some r)).
(** addnode, 694-718; a missing old name is a KeyError too. *)
Definition addnode (d : mapdb) (e : entry) : mapdb :=
  let r := d_next d in
  let d := mkDb (nset (d_heap d) r e) (S r) (d_nodes d) (d_names d) in
  match d_nodes d (e_id e) with
  | None => addnew d r e
  | Some o =>
      let oldname := e_name (d_heap d o) in
      let new := merge (d_heap d o) e in
      let d := mkDb (nset (d_heap d) o new) (d_next d) (d_nodes d) (d_names d) in
      if oldname =? e_name new then d
      else match d_names d oldname with
           | None => addnew d r e
           | Some _ => mkDb (d_heap d) (d_next d) (d_nodes d) (zset (zset (d_names d) oldname None) (e_name new) (Some o))
           end
  end.
(** decode_json, 754-774: an entry of the file. *)
Definition loadnode (d : mapdb) (e : entry) : mapdb :=
  let r := d_next d in
  mkDb (nset (d_heap d) r e) (S r) (zset (d_nodes d) (e_id e) (Some r)) (zset (d_names d) (e_name e) (Some r)).
(** What else changes entries: mapnode, 1488-1498, observations in a scan, 539-577, and
    the name that a poll learns if there is none, 1014-1019 and 1041-1046. *)
Definition fresh (i nm : Z) : entry := mkE i nm [] 0 0 0 0 None 0 None None.
Definition mapnode (d : mapdb) (i nm : Z) : mapdb := match d_nodes d i with Some _ => d | None => addnode d (fresh i nm) end.
Definition observe (d : mapdb) (i : Z) (adj : list Z) (seen down up : Z) : mapdb :=
  match d_nodes d i with
  | None => d
  | Some o => let x := d_heap d o in
      mkDb (nset (d_heap d) o (mkE (e_id x) (e_name x) adj seen down up (e_loc x) (e_type x) (e_ident x) (e_owner x) (e_latlong x))) (d_next d) (d_nodes d) (d_names d)
  end.
Definition learn (d : mapdb) (i nm : Z) : mapdb :=
  match d_nodes d i with
  | None => d
  | Some o => let x := d_heap d o in
      if e_name x =? 0 then mkDb (nset (d_heap d) o (mkE (e_id x) nm (e_adj x) (e_seen x) (e_down x) (e_up x) (e_loc x) (e_type x) (e_ident x) (e_owner x) (e_latlong x))) (d_next d) (d_nodes d) (d_names d)
      else d
  end.

(** * The answer of the database server, 1660-1713 *)
(** Lines that match, by their key; the times are left out; coordinates are numbers, 0
    is (0, 0), which is none. *)
Inductive field := FNode (n : Z) | FAddr (a : Z) | FOwner (o : Z) | FLoc (l : Z) | FCoord (c : Z) | FOther.
Record upd := mkU { u_name : Z; u_addr : option Z; u_owner : option Z; u_loc : option Z; u_coord : Z }.
Definition upd0 : upd := mkU 0 None None None 0.
(** The place scrapped. *)
Definition SCRAPPED : Z := 1.
(** The end of a record, 1677-1690 and 1702-1712: None if it is left out, an exception
    without a place (None has no lower) or an address (Nodeid of None). *)
Definition record (u : upd) : res (option entry) :=
  if u_name u =? 0 then Ok None
  else match u_loc u with
       | None => Err EAttr
       | Some l => if l =? SCRAPPED then Ok None
                   else match u_addr u with
                        | None => Err EType
                        | Some a => Ok (Some (mkE a (u_name u) [] 0 0 0 l None 0 (u_owner u) (if u_coord u =? 0 then None else Some (u_coord u))))
                        end
       end.
(** The loop: the records given to addnode; the attributes are reset only after a
    record that is used, 1689-1690. *)
Fixpoint fields (l : list field) (u : upd) : res (list entry) :=
  match l with
  | [] => let* r := record u in Ok (match r with Some e => [e] | None => [] end)
  | FNode n :: t =>
      let* r := record u in
      (match r with
       | Some e => let* es := fields t (mkU n None None None 0) in Ok (e :: es)
       | None => fields t (mkU n (u_addr u) (u_owner u) (u_loc u) (u_coord u))
       end)
  | FAddr a :: t => fields t (mkU (u_name u) (Some a) (u_owner u) (u_loc u) (u_coord u))
  | FOwner o :: t => fields t (mkU (u_name u) (u_addr u) (Some o) (u_loc u) (u_coord u))
  | FLoc x :: t => fields t (mkU (u_name u) (u_addr u) (u_owner u) (Some x) (u_coord u))
  | FCoord c :: t => fields t (mkU (u_name u) (u_addr u) (u_owner u) (u_loc u) c)
  | FOther :: t => fields t u
  end.

(** * The file, 720-746 *)
(** A file: not there, some of a map, all of it.  The files are the map, its backup and
    the new one. *)
Inductive content := Part | Whole (m : Z).
Record files := mkF { f_map : option content; f_old : option content; f_new : option content }.
(** The steps of save: open, write, rename the map (an OSError is ignored), rename the
    new one. *)
Definition save_open (f : files) : files := mkF (f_map f) (f_old f) (Some Part).
Definition save_write (m : Z) (f : files) : files := mkF (f_map f) (f_old f) (Some (Whole m)).
Definition save_backup (f : files) : files := match f_map f with None => f | Some _ => mkF None (f_map f) (f_new f) end.
Definition save_rename (f : files) : files := mkF (f_new f) (f_old f) None.
Definition save_steps (m : Z) : list (files -> files) := [save_open; save_write m; save_backup; save_rename].
(** A save that stops (crash, full disk) after [k] steps; 4 is all of it. *)
Definition save (k : nat) (m : Z) (f : files) : files := fold_left (fun f s => s f) (firstn k (save_steps m)) f.
(** load, 740-746: 0 is the null data, an exception if the map does not parse. *)
Definition load (f : files) : res Z := match f_map f with None => Ok 0 | Some Part => Err EValue | Some (Whole m) => Ok m end.
