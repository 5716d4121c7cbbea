(** The broadcast circuit of a router: /repo/pydecnet/decnet/route_eth.py, class
    RoutingLanCircuit (429-768), with adjacency.py (84-114).

    Adjacency objects are kept apart from the table of adjacencies
    (self.adjacencies), because an object can outlive its table entry: its
    listen timer may still run.  Objects are named by serial numbers.  Times
    are not modelled: a running timer may expire at any moment.  newhello
    (726-737) either sends or postpones the hello and is one output here.
    Node addresses are numbers area * 1024 + tid (common.py:276-332).  The
    calls into routing (adj_up, adj_down) are outputs; their effect is in
    RoutingModel.  Log text and counters are not modelled. *)
From Verif Require Import Base Dict RoutingModel.

Record ladj := { a_id : Z; a_type : ntype; a_prio : Z; a_blk : Z; a_up : bool; a_tmr : bool }.
Definition a_router (a : ladj) : bool := match a_type a with NEnd => false | _ => true end.
Definition set_up (a : ladj) (b : bool) := {| a_id := a_id a; a_type := a_type a; a_prio := a_prio a; a_blk := a_blk a; a_up := b; a_tmr := a_tmr a |}.
Definition set_tmr (a : ladj) (b : bool) := {| a_id := a_id a; a_type := a_type a; a_prio := a_prio a; a_blk := a_blk a; a_up := a_up a; a_tmr := b |}.
(** self.dr: None, the own node id, or an adjacency. *)
Inductive drv := DrNone | DrMe | DrAdj (ser : Z).
(** Configuration: node id, whether this is an area router, priority, maximum
    number of routers (config nr). *)
Record lcfg := { l_id : Z; l_l2 : bool; l_prio : Z; l_nr : Z }.
Record lst := { objs : dict Z ladj; tab : dict Z Z; nxt : Z; dr : drv; isdr : bool; drt : bool; blk : Z }.
Inductive lout :=
  | LUp (id : Z) (t : ntype) | LDown (id : Z) (t : ntype)      (* routing.adj_up, adj_down *)
  | LNewHello                                                  (* newhello *)
  | LHello (rs : list (Z * Z * bool)) (dr : bool)              (* sendhello: router list, also to endnodes *)
  | LEvUp (id : Z) | LEvDown (id : Z) | LEvRej (id : Z)        (* events *)
  | LPass (id : Z) (dummy : bool).                             (* packet passed to routing *)
Definition ETHMTU : Z := 591.   (* common.py:44-45 *)
Definition area_of (id : Z) : Z := id / 1024.

Definition withobjs s x := {| objs := x; tab := tab s; nxt := nxt s; dr := dr s; isdr := isdr s; drt := drt s; blk := blk s |}.
Definition withtab s x := {| objs := objs s; tab := x; nxt := nxt s; dr := dr s; isdr := isdr s; drt := drt s; blk := blk s |}.
Definition withdr s x := {| objs := objs s; tab := tab s; nxt := nxt s; dr := x; isdr := isdr s; drt := drt s; blk := blk s |}.
Definition withisdr s x := {| objs := objs s; tab := tab s; nxt := nxt s; dr := dr s; isdr := x; drt := drt s; blk := blk s |}.
Definition withdrt s x := {| objs := objs s; tab := tab s; nxt := nxt s; dr := dr s; isdr := isdr s; drt := x; blk := blk s |}.
Definition withblk s x := {| objs := objs s; tab := tab s; nxt := nxt s; dr := dr s; isdr := isdr s; drt := drt s; blk := x |}.
Definition get_obj (s : lst) (ser : Z) : ladj :=
  match dget Z.eqb (objs s) ser with Some a => a | None => {| a_id := 0; a_type := NEnd; a_prio := 0; a_blk := 0; a_up := false; a_tmr := false |} end.
Definition put_obj (s : lst) (ser : Z) (a : ladj) : lst := withobjs s (dset Z.eqb (objs s) ser a).

(** routers, 486-489: the serials of the router adjacencies in table order. *)
Definition routers (C : lcfg) (anyarea : bool) (s : lst) : list Z :=
  filter (fun ser => a_router (get_obj s ser) && (anyarea || (area_of (a_id (get_obj s ser)) =? area_of (l_id C)))) (map snd (tab s)).
(** sortkey 30, as comparison of pairs. *)
Definition key_lt (a b : Z * Z) : bool := (fst a <? fst b) || ((fst a =? fst b) && (snd a <? snd b)).
Definition sortkey (a : ladj) : Z * Z := (a_prio a, a_id a).
(** Python's max and min with a key: the first one of those that are extreme. *)
Fixpoint maxby (f : Z -> Z * Z) (best : Z) (l : list Z) : Z :=
  match l with [] => best | x :: t => maxby f (if key_lt (f best) (f x) then x else best) t end.
Fixpoint minby (f : Z -> Z * Z) (best : Z) (l : list Z) : Z :=
  match l with [] => best | x :: t => minby f (if key_lt (f x) (f best) then x else best) t end.
(** findbestdr 671-684; None stands for self. *)
Definition findbestdr (C : lcfg) (s : lst) : option Z :=
  match routers C false s with
  | [] => None
  | x :: t =>
    let d := maxby (fun k => sortkey (get_obj s k)) x t in
    if key_lt (sortkey (get_obj s d)) (l_prio C, l_id C) then None else Some d
  end.
(** self.dr != dr, 706: adjacencies are equal when the node ids are
    (adjacency.py:69-75). *)
Definition dr_is (s : lst) (ser : Z) : bool := match dr s with DrAdj x => a_id (get_obj s x) =? a_id (get_obj s ser) | _ => false end.
(** calcdr 686-710. *)
Definition calcdr (C : lcfg) (s : lst) : lst * list lout :=
  match findbestdr C s with
  | None => if negb (isdr s) && negb (drt s) then (withdrt s true, []) else (s, [])
  | Some d =>
    let '(s1, o) := if isdr s then (withisdr s false, [LNewHello]) else (s, []) in
    if dr_is s1 d then (s1, o) else (withdr (withdrt s1 false) (DrAdj d), o)
  end.
(** update_blk 764-768. *)
Definition update_blk (C : lcfg) (s : lst) : lst :=
  withblk s (fold_left (fun m ser => Z.min m (a_blk (get_obj s ser))) (routers C true s) ETHMTU).
(** Adjacency.up, down, alive, adjacency.py:92-107. *)
Definition adj_start (s : lst) (ser : Z) : lst :=
  match a_type (get_obj s ser) with NPh2 => s | _ => put_obj s ser (set_tmr (get_obj s ser) true) end.
Definition a_goes_up (s : lst) (ser : Z) : lst * list lout :=
  (adj_start s ser, [LUp (a_id (get_obj s ser)) (a_type (get_obj s ser))]).
Definition a_goes_down (s : lst) (ser : Z) : lst * list lout :=
  (put_obj s ser (set_tmr (get_obj s ser) false), [LDown (a_id (get_obj s ser)) (a_type (get_obj s ser))]).
(** deladj 744-762; the event of an UP adjacency is adj_down or adj_rej. *)
Definition deladj (C : lcfg) (s : lst) (ser : Z) (ev : Z -> lout) : lst * list lout :=
  let a := get_obj s ser in
  let '(s1, o1) :=
    if a_up a then
      let '(s', o') := a_goes_down (put_obj s ser (set_up a false)) ser in (s', ev (a_id a) :: o')
    else (s, []) in
  let s2 := withtab s1 (ddel Z.eqb (tab s1) (a_id a)) in
  let s3 := match dr s2 with DrAdj x => if x =? ser then withdr s2 DrNone else s2 | _ => s2 end in
  if a_router a then let '(s4, o4) := calcdr C s3 in (update_blk C s4, o1 ++ o4 ++ [LNewHello])
  else (s3, o1).
(** The hello message, 491-504. *)
Definition hello (C : lcfg) (s : lst) : lout :=
  LHello (map (fun ser => (a_id (get_obj s ser), a_prio (get_obj s ser), a_up (get_obj s ser))) (routers C true s)) (isdr s).

(** What happens on the circuit.  A router hello carries its router list up to
    the first undecodable entry: entries (node id, priority), and whether a
    decode error follows them (Elist and RSent, 599-606; all entries are
    decoded until the own one is found). *)
Inductive lev :=
  | EvEnd (id bk : Z) (testok : bool)
  | EvRouter (id : Z) (t : ntype) (prio bk : Z) (rs : list (Z * Z)) (bad : bool)
  | EvTimeout (ser : Z)                     (* listen timer of an object *)
  | EvDrTimer | EvHelloTimer
  | EvPacket (src : option Z) (data : bool). (* other packets, 643-669 *)
(** Add an adjacency object and its table entry. *)
Definition new_adj (s : lst) (a : ladj) : lst :=
  {| objs := dset Z.eqb (objs s) (nxt s) a; tab := dset Z.eqb (tab s) (a_id a) (nxt s); nxt := nxt s + 1;
     dr := dr s; isdr := isdr s; drt := drt s; blk := blk s |}.
(** 534-538. *)
Definition accepts (C : lcfg) (id : Z) (t : ntype) : bool :=
  (area_of id =? area_of (l_id C)) || (l_l2 C && is_l2 t).
(** End node hello, 541-563. *)
Definition end_hello (C : lcfg) (s : lst) (id bk : Z) (testok : bool) : lst * list lout :=
  match dget Z.eqb (tab s) id with
  | a => if negb testok then match a with Some ser => deladj C s ser LEvDown | None => (s, []) end
         else match a with
              | None =>
                let ser := nxt s in
                let s1 := new_adj s {| a_id := id; a_type := NEnd; a_prio := 0; a_blk := bk; a_up := true; a_tmr := false |} in
                let '(s2, o2) := a_goes_up s1 ser in (s2, LEvUp id :: o2)
              | Some ser => if a_router (get_obj s ser) then deladj C s ser LEvDown else (adj_start s ser, [])
              end
  end.
(** The part of the router hello after the adjacency is known, 592-642: the
    own entry in the router list. *)
Fixpoint find_self (me prio : Z) (rs : list (Z * Z)) (bad : bool) : res (option unit) :=
  match rs with
  | [] => if bad then Err EDecode else Ok None
  | (r, p) :: t => if r =? me then (if p =? prio then Ok (Some tt) else Err EName) else find_self me prio t bad
  end.
Definition two_way (C : lcfg) (s : lst) (ser : Z) (rs : list (Z * Z)) (bad ch : bool) : res (lst * list lout) :=
  let a := get_obj s ser in
  (* the message of 609-610 refers to an undefined name, so the deladj of 611
     is never reached *)
  let* me := find_self (l_id C) (l_prio C) rs bad in
  let '(s1, o1, ch1) :=
    match me with
    | Some _ =>
      if a_up a then (s, [], ch)
      else let '(s', o') := a_goes_up (put_obj s ser (set_up a true)) ser in (s', LEvUp (a_id a) :: o', true)
    | None =>
      if a_up a then
        let '(s', o') := a_goes_down s ser in
        (put_obj (withtab s' (dset Z.eqb (tab s') (a_id a) ser)) ser (set_up (get_obj s' ser) false), LEvDown (a_id a) :: o', true)
      else (s, [], ch)
    end in
  let '(s2, o2) := calcdr C s1 in
  Ok (s2, o1 ++ o2 ++ if ch1 then [LNewHello] else []).
Definition ntype_eqb (a b : ntype) : bool :=
  match a, b with NEnd, NEnd | NPh2, NPh2 | NL1, NL1 | NL2, NL2 => true | _, _ => false end.
(** 586-591. *)
Definition changed (a : ladj) (t : ntype) (prio : Z) : bool :=
  negb (a_router a) || negb (ntype_eqb (a_type a) t) || negb (a_prio a =? prio).
(** Router hello, 564-642. *)
Definition router_hello (C : lcfg) (s : lst) (id : Z) (t : ntype) (prio bk : Z) (rs : list (Z * Z)) (bad : bool) : res (lst * list lout) :=
  match dget Z.eqb (tab s) id with
  | None =>
    let ser := nxt s in
    let s1 := new_adj s {| a_id := id; a_type := t; a_prio := prio; a_blk := bk; a_up := false; a_tmr := false |} in
    let l := routers C true s1 in
    let '(s2, o2, gone) :=
      match l with
      | x :: r =>
        if l_nr C <? zlen l then
          let m := minby (fun k => sortkey (get_obj s1 k)) x r in
          let rej := if a_up (get_obj s1 m) then [] else [LEvRej (a_id (get_obj s1 m))] in
          let '(s', o') := deladj C s1 m LEvRej in (s', rej ++ o', a_id (get_obj s1 m) =? id)
        else (s1, [], false)
      | [] => (s1, [], false)
      end in
    if gone then Ok (s2, o2)
    else
      let s3 := update_blk C s2 in
      if changed (get_obj s3 ser) t prio then let '(s4, o4) := deladj C s3 ser LEvDown in Ok (s4, o2 ++ o4)
      else let* (s4, o4) := two_way C s3 ser rs bad true in Ok (s4, o2 ++ o4)
  | Some ser =>
    let s1 := adj_start s ser in
    if changed (get_obj s1 ser) t prio then Ok (deladj C s1 ser LEvDown)
    else two_way C s1 ser rs bad false
  end.
(** becomedr 712-724. *)
Definition becomedr (C : lcfg) (s : lst) : lst * list lout :=
  let s1 := withdrt (withisdr s true) false in
  match findbestdr C s1 with
  | None => (withdr s1 DrMe, [LNewHello])
  | Some _ => calcdr C s1
  end.
(** Timeout of an adjacency, adjacency.py:84-90 and 739-742. *)
Definition adj_timeout (C : lcfg) (s : lst) (ser : Z) : lst * list lout :=
  let s0 := put_obj s ser (set_tmr (get_obj s ser) false) in
  let '(s1, o1) := a_goes_down s0 ser in
  let '(s2, o2) := deladj C s1 ser LEvDown in (s2, o1 ++ o2).
(** dispatch, 506-669.  A timer that does not run does not expire. *)
Definition lstep (C : lcfg) (s : lst) (e : lev) : res (lst * list lout) :=
  match e with
  | EvEnd id bk ok => if accepts C id NEnd then Ok (end_hello C s id bk ok) else Ok (s, [])
  | EvRouter id t prio bk rs bad => if accepts C id t then router_hello C s id t prio bk rs bad else Ok (s, [])
  | EvTimeout ser => if a_tmr (get_obj s ser) then Ok (adj_timeout C s ser) else Ok (s, [])
  | EvDrTimer => if drt s then Ok (becomedr C s) else Ok (s, [])
  | EvHelloTimer => let '(s1, o1) := calcdr C s in Ok (s1, o1 ++ [hello C s1])
  | EvPacket src data =>
    let a := match src with
             | Some id => match dget Z.eqb (tab s) id with Some ser => Some (get_obj s ser) | None => None end
             | None => match tab s with (_, ser) :: _ => Some (get_obj s ser) | [] => None end
             end in
    match a, src with
    | Some x, _ => if a_up x then Ok (s, [LPass (a_id x) false])
                   else match src with Some id => if data then Ok (s, [LPass id true]) else Ok (s, []) | None => Ok (s, []) end
    | None, Some id => if data then Ok (s, [LPass id true]) else Ok (s, [])
    | None, None => Ok (s, [])
    end
  end.
Fixpoint lsteps (C : lcfg) (s : lst) (l : list lev) : res (lst * list lout) :=
  match l with
  | [] => Ok (s, [])
  | e :: t => let* (s1, o1) := lstep C s e in let* (s2, o2) := lsteps C s1 t in Ok (s2, o1 ++ o2)
  end.
Definition lstart : lst := {| objs := []; tab := []; nxt := 0; dr := DrNone; isdr := false; drt := false; blk := ETHMTU |}.
