(** Routing decision process of pydecnet: /repo/pydecnet/decnet/routing.py,
    classes RouteInfo, EndnodesRouteInfo, L1Router, L2Router (lines 807-1038,
    1110-1140, 1346-1480).

    The hops and cost vectors (bytearray / array "H", 809-812) are functions
    from the destination to (hops, cost); the index bounds that the code
    relies on are tested where the code indexes with a number that comes from
    outside.  Adjacency objects are compared by circuit and node id
    (adjacency.py:69-78), so they are identified by that pair.  Log text and
    counters are not modelled. *)
From Verif Require Import Base Dict.

Definition INFHOPS : Z := 31.      (* common.py:41 *)
Definition INFCOST : Z := 1023.    (* common.py:42 *)
Definition INF : Z * Z := (INFHOPS, INFCOST).

(** An adjacency: this node itself, or a neighbour by circuit, area and node
    number. *)
Inductive key := ASelf | ANbr (c area tid : Z).
Definition keqb (a b : key) : bool :=
  match a, b with
  | ASelf, ASelf => true
  | ANbr c n t, ANbr c' n' t' => (c =? c') && (n =? n') && (t =? t')
  | _, _ => false
  end.
Definition okeqb (a b : option key) : bool :=
  match a, b with None, None => true | Some x, Some y => keqb x y | _, _ => false end.
Inductive ntype := NEnd | NPh2 | NL1 | NL2.
Definition is_router (t : ntype) : bool := match t with NL1 | NL2 => true | _ => false end.
Definition is_l2 (t : ntype) : bool := match t with NL2 => true | _ => false end.

Definition vec := Z -> Z * Z.
Definition upd {A} (f : Z -> A) (i : Z) (v : A) : Z -> A := fun j => if j =? i then v else f j.
(** allocvecs, 89-98. *)
Definition infvec : vec := fun _ => INF.

(** Configuration of the router (L1Router.__init__ 846-859, L2Router.__init__
    1357-1368); c_cost is the circuit cost. *)
Record rcfg := {
  r_home : Z; r_tid : Z; r_maxn : Z; r_maxhops : Z; r_maxcost : Z;
  r_l2 : bool; r_maxarea : Z; r_amaxhops : Z; r_amaxcost : Z; r_cost : Z -> Z }.
(** l1info without the ENDNODE column (which is the first one, 859) and
    l2info, in dict order; the ENDNODE column with its adjacencies; the
    minimum vectors and the output adjacency vectors. *)
Record rst := {
  l1 : dict key vec; ecol : vec; eadj : Z -> option key; l2 : dict key vec;
  min1 : vec; out1 : Z -> option key; min2 : vec; out2 : Z -> option key; attached : bool }.
(** Effects outside: flags set for routing updates on all circuits, or on one
    circuit when an adjacency comes up (range), reachability events (logged
    for nodes other than 0 and not for self) and the partial update event. *)
Inductive rout :=
  | OSrm (i : Z) | OASrm (i : Z) | OSrmC (c lo hi : Z) | OASrmC (c lo hi : Z)
  | OReach (i : Z) (up : bool) | OArea (i : Z) (up : bool) | OLoss (k : Z).

(** The candidates of the decision for destination i: 988, in the order of
    routeinfodict.values (). *)
Definition cands1 (s : rst) (i : Z) : list (Z * Z * option key) :=
  (ecol s i, eadj s i) :: map (fun kv => (snd kv i, Some (fst kv))) (l1 s).
Definition cands2 (s : rst) (i : Z) : list (Z * Z * option key) :=
  map (fun kv => (snd kv i, Some (fst kv))) (l2 s).
(** 987-995.  RouteInfo.nodeid is always None (818), so the tie break on the
    node id never applies; UNREACHABLE (None here) is false, as is a missing
    endnode adjacency. *)
Fixpoint pick (l : list (Z * Z * option key)) (bh bc : Z) (ba : option key) : Z * Z * option key :=
  match l with
  | [] => (bh, bc, ba)
  | ((h, c), a) :: t =>
    if (c <? bc) || ((c =? bc) && match ba with None => true | _ => false end) then pick t h c a else pick t bh bc ba
  end.
(** 987-997. *)
Definition decide (maxhops maxcost : Z) (l : list (Z * Z * option key)) : Z * Z * option key :=
  let '(bh, bc, ba) := pick l INFHOPS INFCOST None in
  if (maxcost <? bc) || (maxhops <? bh) then (INFHOPS, INFCOST, None) else (bh, bc, ba).

Definition set1 (s : rst) m o := {| l1 := l1 s; ecol := ecol s; eadj := eadj s; l2 := l2 s; min1 := m; out1 := o; min2 := min2 s; out2 := out2 s; attached := attached s |}.
Definition set2 (s : rst) m o := {| l1 := l1 s; ecol := ecol s; eadj := eadj s; l2 := l2 s; min1 := min1 s; out1 := out1 s; min2 := m; out2 := o; attached := attached s |}.
Definition setl1 (s : rst) d := {| l1 := d; ecol := ecol s; eadj := eadj s; l2 := l2 s; min1 := min1 s; out1 := out1 s; min2 := min2 s; out2 := out2 s; attached := attached s |}.
Definition setl2 (s : rst) d := {| l1 := l1 s; ecol := ecol s; eadj := eadj s; l2 := d; min1 := min1 s; out1 := out1 s; min2 := min2 s; out2 := out2 s; attached := attached s |}.
Definition setend (s : rst) f a := {| l1 := l1 s; ecol := f; eadj := a; l2 := l2 s; min1 := min1 s; out1 := out1 s; min2 := min2 s; out2 := out2 s; attached := attached s |}.
Definition setatt (s : rst) b := {| l1 := l1 s; ecol := ecol s; eadj := eadj s; l2 := l2 s; min1 := min1 s; out1 := out1 s; min2 := min2 s; out2 := out2 s; attached := b |}.

Definition pair_eqb (a b : Z * Z) : bool := (fst a =? fst b) && (snd a =? snd b).
(** The body of the loop of doroute, 986-1038, for the level 1 tables.  The
    event is logged when the route changes to or from unreachable, not when
    the new route is self, and not for destination 0. *)
Definition isself (a : option key) : bool := match a with Some ASelf => true | _ => false end.
Definition route1 (C : rcfg) (s : rst) (i : Z) : rst * list rout :=
  let '(h, c, a) := decide (r_maxhops C) (r_maxcost C) (cands1 s i) in
  let '(m, o1) := if negb (fst (min1 s i) =? h) || negb (snd (min1 s i) =? c)
                  then (upd (min1 s) i (h, c), [OSrm i]) else (min1 s, []) in
  if okeqb a (out1 s i) then (set1 s m (out1 s), o1)
  else
    let rch := match a, out1 s i with None, _ | _, None => true | _, _ => false end in
    (set1 s m (upd (out1 s) i a),
     o1 ++ (if rch && negb (isself a) && negb (i =? 0) then [OReach i (match a with None => false | _ => true end)] else [])).
(** The same for level 2; it uses maxcost and maxhops as well (996), not
    amaxcost and amaxhops. *)
Definition route2 (C : rcfg) (s : rst) (i : Z) : rst * list rout :=
  let '(h, c, a) := decide (r_maxhops C) (r_maxcost C) (cands2 s i) in
  let '(m, o1) := if negb (fst (min2 s i) =? h) || negb (snd (min2 s i) =? c)
                  then (upd (min2 s) i (h, c), [OASrm i]) else (min2 s, []) in
  if okeqb a (out2 s i) then (set2 s m (out2 s), o1)
  else
    let rch := match a, out2 s i with None, _ | _, None => true | _, _ => false end in
    (set2 s m (upd (out2 s) i a),
     o1 ++ (if rch && negb (isself a) then [OArea i (match a with None => false | _ => true end)] else [])).
Fixpoint each (f : rst -> Z -> rst * list rout) (s : rst) (l : list Z) : rst * list rout :=
  match l with [] => (s, []) | i :: t => let '(s1, o1) := f s i in let '(s2, o2) := each f s1 t in (s2, o1 ++ o2) end.
Definition span (lo hi : Z) : list Z := map (fun k => lo + Z.of_nat k) (seq 0 (Z.to_nat (hi + 1 - lo))).

(** check, 1110-1122 and 1463-1480: the process exits (sys.exit) if the
    vectors of the self adjacency are not as they should be. *)
Definition check1 (C : rcfg) (s : rst) : bool :=
  match dget keqb (l1 s) ASelf with
  | Some v => forallb (fun i => if (i =? r_tid C) || (attached s && (i =? 0)) then pair_eqb (v i) (0, 0) else pair_eqb (v i) INF)
                      (span 0 (r_maxn C))
  | None => false
  end.
Definition check2 (C : rcfg) (s : rst) : bool :=
  negb (r_l2 C) ||
  match dget keqb (l2 s) ASelf with
  | Some v => forallb (fun i => if i =? r_home C then pair_eqb (v i) (0, 0) else pair_eqb (v i) INF) (span 1 (r_maxarea C))
  | None => false
  end.
(** The exit is represented by AssertionError. *)
Definition check (C : rcfg) (s : rst) : res unit := if check1 C s && check2 C s then Ok tt else Err EAssert.
Definition route (C : rcfg) (s : rst) (lo hi : Z) : res (rst * list rout) :=
  let* _ := check C s in Ok (each (route1 C) s (span lo hi)).
(** L2Router.aroute, 1416-1451; a level 1 router does nothing (1107). *)
Definition is_attached (C : rcfg) (s : rst) : bool :=
  existsb (fun i => match out2 s i with Some _ => negb (i =? r_home C) | None => false end) (span 0 (r_maxarea C)).
Definition aroute (C : rcfg) (s : rst) (lo hi : Z) : res (rst * list rout) :=
  if negb (r_l2 C) then Ok (s, []) else
  let* _ := check C s in
  let '(s1, o1) := each (route2 C) s (span lo hi) in
  let att := is_attached C s1 in
  if Bool.eqb att (attached s1) then Ok (s1, o1)
  else
    match dget keqb (l1 s1) ASelf with
    | None => Err EAttr
    | Some v =>
      let s2 := setl1 (setatt s1 att) (dset keqb (l1 s1) ASelf (upd v 0 (if att then (0, 0) else INF))) in
      let* (s3, o3) := route C s2 0 0 in Ok (s3, o1 ++ OSrm 0 :: o3)
    end.

(** The state after __init__ and start (846-859, 927-935, 1357-1389): the
    self adjacency is up, no destination has been routed yet. *)
Definition start (C : rcfg) : rst :=
  {| l1 := [(ASelf, upd infvec (r_tid C) (0, 0))]; ecol := infvec; eadj := fun _ => None;
     l2 := if r_l2 C then [(ASelf, upd infvec (r_home C) (0, 0))] else [];
     min1 := infvec; out1 := upd (fun _ => None) (r_tid C) (Some ASelf);
     min2 := infvec; out2 := if r_l2 C then upd (fun _ => None) (r_home C) (Some ASelf) else fun _ => None;
     attached := false |}.

(** What the circuits report.  Adjacencies are brought up and down by the
    datalink dependent sublayer; the routing messages are those of an
    adjacency that is up, with entries as produced by the generator
    [entries] (routing_packets.py:392-440). *)
Inductive rev :=
  | Up (c area tid : Z) (t : ntype)
  | Down (c area tid : Z) (t : ntype)
  | Msg1 (c area tid : Z) (ents : list (Z * (Z * Z)))
  | Msg2 (c area tid : Z) (ents : list (Z * (Z * Z))).

(** L1Router.adj_up 861-904 and L2Router.adj_up 1370-1391. *)
Definition adj_up (C : rcfg) (s : rst) (c area tid : Z) (t : ntype) : res (rst * list rout) :=
  let k := ANbr c area tid in
  let l2r := r_l2 C && is_l2 t in
  let s := if l2r then setl2 s (dset keqb (l2 s) k infvec) else s in
  let* (s, o) :=
    (if is_router t then
       if negb (area =? r_home C) then Ok (s, [])
       else Ok (setl1 s (dset keqb (l1 s) k infvec), [OSrmC c 0 (r_maxn C)])
     else if r_maxn C <? tid then Err EIndex
     else route C (setend s (upd (ecol s) tid (1, r_cost C c)) (upd (eadj s) tid (Some k))) tid tid) in
  Ok (s, o ++ if l2r then [OASrmC c 1 (r_maxarea C)] else []).
(** L1Router.adj_down 906-925 and L2Router.adj_down 1393-1403. *)
Definition adj_down (C : rcfg) (s : rst) (c area tid : Z) (t : ntype) : res (rst * list rout) :=
  let k := ANbr c area tid in
  let* (s, o) :=
    (if is_router t then route C (setl1 s (ddel keqb (l1 s) k)) 0 (r_maxn C)
     else if r_maxn C <? tid then Err EIndex
     else route C (setend s (upd (ecol s) tid INF) (upd (eadj s) tid None)) tid tid) in
  if r_l2 C && is_l2 t then
    let* (s2, o2) := aroute C (setl2 s (ddel keqb (l2 s) k)) 1 (r_maxarea C) in Ok (s2, o ++ o2)
  else Ok (s, o).
(** routemsg, 937-955.  info is the vector of the adjacency, None when it has
    none (then the first entry in range fails).  An entry above the maximum
    counts as lost unless it equals (INFHOPS, INFCOST). *)
Fixpoint routemsg1 (C : rcfg) (s : rst) (k : key) (maxreach : Z) (ents : list (Z * (Z * Z))) : res (rst * list rout) :=
  match ents with
  | [] => Ok (s, if maxreach =? 0 then [] else [OLoss maxreach])
  | (i, v) :: t =>
    if r_maxn C <? i then routemsg1 C s k (if pair_eqb v INF then maxreach else Z.max maxreach i) t
    else match dget keqb (l1 s) k with
         | None => Err EAttr
         | Some old =>
           if pair_eqb (old i) v then routemsg1 C s k maxreach t
           else
             let* (s1, o1) := route C (setl1 s (dset keqb (l1 s) k (upd old i v))) i i in
             let* (s2, o2) := routemsg1 C s1 k maxreach t in Ok (s2, o1 ++ o2)
         end
  end.
Fixpoint routemsg2 (C : rcfg) (s : rst) (k : key) (maxreach : Z) (ents : list (Z * (Z * Z))) : res (rst * list rout) :=
  match ents with
  | [] => Ok (s, if maxreach =? 0 then [] else [OLoss maxreach])
  | (i, v) :: t =>
    if r_maxarea C <? i then routemsg2 C s k (if pair_eqb v INF then maxreach else Z.max maxreach i) t
    else match dget keqb (l2 s) k with
         | None => Err EAttr
         | Some old =>
           if pair_eqb (old i) v then routemsg2 C s k maxreach t
           else
             let* (s1, o1) := aroute C (setl2 s (dset keqb (l2 s) k (upd old i v))) i i in
             let* (s2, o2) := routemsg2 C s1 k maxreach t in Ok (s2, o1 ++ o2)
         end
  end.
(** dispatch, 957-964 and 1405-1410.  A level 1 router's circuits do not
    accept level 2 messages (route_eth.py:446-450, route_ptp.py rustate). *)
Definition rstep (C : rcfg) (s : rst) (e : rev) : res (rst * list rout) :=
  match e with
  | Up c a n t => adj_up C s c a n t
  | Down c a n t => adj_down C s c a n t
  | Msg1 c a n ents => if a =? r_home C then routemsg1 C s (ANbr c a n) 0 ents else Ok (s, [])
  | Msg2 c a n ents => if r_l2 C then routemsg2 C s (ANbr c a n) 0 ents else Ok (s, [])
  end.
Fixpoint rsteps (C : rcfg) (s : rst) (l : list rev) : res (rst * list rout) :=
  match l with
  | [] => Ok (s, [])
  | e :: t => let* (s1, o1) := rstep C s e in let* (s2, o2) := rsteps C s1 t in Ok (s2, o1 ++ o2)
  end.
