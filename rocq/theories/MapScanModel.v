(** How the network mapper scans the network and what it takes for up: mapper.py
    535-577 (MapItem), 1336-1486 (checkmapscan, polling, nextnode, finish_poll).
    The poll of one node (NodePoller) is seen only as its report, PollDone; the
    database of locations, the map image and files are not modelled. *)
From Verif Require Import Base.

(** * Up and down *)
(** MapItem: a node or adjacency; times are whole seconds. *)
Record item := mkItem { i_seen : Z; i_down : Z; i_up : Z }.
Definition item0 : item := mkItem 0 0 0.
(** update, 539-561; also returns whether it came up. *)
Definition update (x : item) (up : bool) (ts : Z) : item * bool :=
  if up then
    if i_up x <=? i_down x then (mkItem ts (i_down x) ts, true) else (mkItem ts (i_down x) (i_up x), false)
  else
    if i_up x >? i_down x then (mkItem (i_seen x) ts (i_up x), false) else (x, false).
(** testdown, 574-577. *)
Definition testdown (x : item) (ts : Z) : item := if i_seen x <? ts then fst (update x false ts) else x.
(** health, 563-572; FADE_TIME and GONE_TIME are 14 and 60 days. *)
Inductive health_code := HGone | HFade | HDown | HUp.
Definition day : Z := 86400.
Definition health (lastscan : Z) (x : item) : health_code :=
  if i_up x >? i_down x then HUp
  else if lastscan - i_down x >? 60 * day then HGone
  else if lastscan - i_down x >? 14 * day then HFade else HDown.

(** * The scan *)
Definition inb (x : Z) (l : list Z) : bool := existsb (Z.eqb x) l.
Definition addset (x : Z) (l : list Z) : list Z := if inb x l then l else l ++ [x].
Definition MAXPARPOLL : Z := 20.
(** The mapper; a node is its address, a set a list without duplicates.  [m_busy]
    is the state polling, else s0.  [m_polled] is not in the code: the polls started
    since the scan began. *)
Record mapper := mkMap {
  m_todo : list Z; m_done : list Z; m_polls : list Z; m_nodes : list Z;
  m_first : bool; m_full : bool; m_busy : bool; m_polled : list Z }.
(** The loop of nextnode, 1423-1434.  Which node todo.pop () gives is not said, so the
    order of the list is arbitrary: see [order] below.  mapnode enters a node that is
    not in the database. *)
Fixpoint fill (todo done polls nodes polled : list Z) : list Z * list Z * list Z * list Z * list Z :=
  match todo with
  | [] => ([], done, polls, nodes, polled)
  | x :: t =>
      if zlen polls <? MAXPARPOLL then
        if inb x done then fill t done polls nodes polled
        else fill t (addset x done) (addset x polls) (addset x nodes) (polled ++ [x])
      else (todo, done, polls, nodes, polled)
  end.
Definition fill_ (s : mapper) : mapper :=
  let '(todo, done, polls, nodes, polled) := fill (m_todo s) (m_done s) (m_polls s) (m_nodes s) (m_polled s) in
  mkMap todo done polls nodes (m_first s) (m_full s) true polled.
(** finish_poll as far as it is about the scan, 1464-1466 and 1478. *)
Definition finish (s : mapper) : mapper := mkMap [] [] [] (m_nodes s) (m_first s) false false (m_polled s).
(** nextnode, 1416-1453.  [o] is the order in which the whole database comes out of
    the set, in the second part of a full scan. *)
Definition nextnode (o : list Z -> list Z) (s : mapper) : mapper :=
  let s := fill_ s in
  match m_polls s with
  | _ :: _ => s
  | [] =>
      if m_first s then
        let s := fill_ (mkMap (o (m_nodes s)) (m_done s) (m_polls s) (m_nodes s) false (m_full s) (m_busy s) (m_polled s)) in
        match m_polls s with _ :: _ => s | [] => finish s end
      else finish s
  end.
(** The beginning of a full scan, 1357-1384, from the state s0; [skip] are the
    nodes of the database left out at first by their type, [me] the mapper's node. *)
Definition startfull (o : list Z -> list Z) (me : Z) (skip : Z -> bool) (s : mapper) : mapper :=
  let todo := o (addset me (filter (fun x => negb (skip x)) (m_nodes s))) in
  nextnode o (mkMap todo (m_done s) (m_polls s) (m_nodes s) true true (m_busy s) []).
(** The beginning of an incremental scan, 1385-1393, of the nodes that events have
    put in the set. *)
Definition startinc (o : list Z -> list Z) (s : mapper) : mapper :=
  nextnode o (mkMap (o (m_todo s)) (m_done s) (m_polls s) (m_nodes s) false (m_full s) (m_busy s) []).
(** polling, 1398-1414: the poll of [x] is over and found the nodes [l] (which have
    been entered in the database, procactnode 1139; for those of procknocirc this is
    done here only when they are polled). *)
Definition union (a b : list Z) : list Z := fold_left (fun r x => addset x r) b a.
Definition polldone (o : list Z -> list Z) (x : Z) (l known : list Z) (s : mapper) : mapper :=
  if m_busy s then
    nextnode o (mkMap (o (union (m_todo s) l)) (m_done s) (filter (fun y => negb (y =? x)) (m_polls s))
                      (union (m_nodes s) known) (m_first s) (m_full s) (m_busy s) (m_polled s))
  else s.
(** An event, 1235-1325: of a circuit or adjacency between two nodes (both are to
    be polled), ignored during a full scan. *)
Definition event (a b : Z) (s : mapper) : mapper :=
  if m_full s then s
  else mkMap (addset b (addset a (m_todo s))) (m_done s) (m_polls s) (addset b (addset a (m_nodes s))) (m_first s) (m_full s) (m_busy s) (m_polled s).
(** What can happen to the mapper while it scans: a report, in any order of the
    sets then, and an event.  Other work and timeouts are ignored in the state
    polling.  A report that comes in the state s0 is like the timer there; here it
    does nothing. *)
Inductive mev := MDone (o : list Z -> list Z) (x : Z) (l known : list Z) | MEvent (a b : Z) | MOther.
Definition mstep (s : mapper) (e : mev) : mapper :=
  match e with MDone o x l known => polldone o x l known s | MEvent a b => event a b s | MOther => s end.
Definition mrun (s : mapper) (l : list mev) : mapper := fold_left mstep l s.
