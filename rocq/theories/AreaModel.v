(** A network of routers of several areas, at both levels, exchanging routing
    messages and forwarding data packets.  It is built from the router of
    RoutingModel (routing.py:937-1038 and 1405-1451 for receipt and decision
    at the two levels, 1547-1704 for the update process) and the forwarding
    of ForwardModel (routing.py:1124-1253, 1453-1461).

    A router is named by its node address, area * 1024 + number (nodeid.py:
    Nodeid).  A link is a sender, a receiver and the circuit of the receiver;
    it carries the messages of both levels in order but may lose them.  As in
    DvModel, message formats are left to RouteMsgModel, and adjacencies do
    not come and go during the run considered. *)
From Verif Require Import Base Dict RoutingModel ForwardModel DvModel.

Definition nid (area tid : Z) : Z := 1024 * area + tid.
(** The adjacency of router m on circuit c of a neighbour. *)
Definition keyof (cf : Z -> rcfg) (m c : Z) : key := ANbr c (r_home (cf m)) (r_tid (cf m)).
(** A message: whether it is a level 2 message, the time it was sent (not
    seen by the routers), and its entries. *)
Record amsg := { a_two : bool; a_time : nat; a_ents : list (Z * (Z * Z)) }.
Record anet := { a_rt : Z -> rst; a_ch : link -> list amsg }.
Inductive aev := ASend (two : bool) (k : link) (dests : list Z) | ARecv (k : link) | ALose (k : link).

(** The entries of an update: L1Update.wrap and L2Update (1660-1704) take
    them from the minimum vectors of their level. *)
Definition asnap (two : bool) (s : rst) (dests : list Z) : list (Z * (Z * Z)) :=
  map (fun i => (i, if two then min2 s i else min1 s i)) dests.
Definition aset_ch (f : link -> list amsg) (k : link) (l : list amsg) : link -> list amsg := fun x => if link_eqb x k then l else f x.
(** One event at time t. *)
Definition astep (cf : Z -> rcfg) (t : nat) (N : anet) (e : aev) : res anet :=
  match e with
  | ASend two ((m, _, _) as k) dests =>
    Ok {| a_rt := a_rt N; a_ch := aset_ch (a_ch N) k (a_ch N k ++ [{| a_two := two; a_time := t; a_ents := asnap two (a_rt N m) dests |}]) |}
  | ARecv ((m, n, c) as k) =>
    match a_ch N k with
    | [] => Ok N
    | g :: rest =>
      let es := add_hop (r_cost (cf n) c) (a_ents g) in
      let* (s, _) := rstep (cf n) (a_rt N n) (if a_two g then Msg2 c (r_home (cf m)) (r_tid (cf m)) es else Msg1 c (r_home (cf m)) (r_tid (cf m)) es) in
      Ok {| a_rt := set_rt (a_rt N) n s; a_ch := aset_ch (a_ch N) k rest |}
    end
  | ALose k => Ok {| a_rt := a_rt N; a_ch := aset_ch (a_ch N) k (tl (a_ch N k)) |}
  end.

(** What router n does with a data packet: one of its own (src None), or one
    that came in on circuit src (forward, 1171-1253; a Phase IV router). *)
Definition ahop (cf : Z -> rcfg) (mv : Z -> Z) (N : anet) (n : Z) (src : option Z) (p : dpkt) : res fout :=
  forward (findoadj (cf n) true (a_rt N n)) (mv n) src (match src with None => true | Some _ => false end) p.
