(** Forwarding of data packets: /repo/pydecnet/decnet/routing.py, L1Router.findoadj
    (1124-1140), L2Router.findoadj (1453-1461), send to a node (1142-1152) and
    forward (1171-1253).

    A packet is reduced to the header fields forward reads or writes; the
    payload is not touched.  Counters, log text and the contents of the drop
    events are not modelled (but the events read the source adjacency, which
    fails if there is none).  Sending to a loop node (1153-1169) is not
    modelled. *)
From Verif Require Import Base RoutingModel.

Record dpkt := { d_dst : Z * Z; d_src : Z * Z; d_rqr : bool; d_rts : bool; d_ie : bool; d_visit : Z }.
(** The result of findoadj: an adjacency, UNREACHABLE (or False), or
    OUT_OF_RANGE; the last two are false. *)
Inductive fadj := FTo (k : key) | FUnreach | FRange.
Definition of_out (o : option key) : fadj := match o with Some k => FTo k | None => FUnreach end.
(** 1124-1140 (ph4 says tiver is tiver_ph4); a vector is indexed from 0 to
    maxnodes, and no node number is negative. *)
Definition findoadj1 (C : rcfg) (ph4 : bool) (s : rst) (dest : Z * Z) : fadj :=
  let '(area, tid) := dest in
  if negb (area =? r_home C) && negb ph4 then FUnreach
  else let i := if area =? r_home C then tid else 0 in
       if r_maxn C <? i then FRange else of_out (out1 s i).
(** 1453-1461. *)
Definition findoadj (C : rcfg) (ph4 : bool) (s : rst) (dest : Z * Z) : fadj :=
  let '(area, tid) := dest in
  if r_l2 C && attached s && negb (area =? r_home C)
  then if r_maxarea C <? area then FUnreach else of_out (out2 s area)
  else findoadj1 C ph4 s dest.

(** What happens to the packet: delivered to this node, sent to a neighbour,
    or dropped (DSilent: an originated packet dropped without event). *)
Inductive why := Aged | OutOfRange | Unreach.
Inductive fout := Deliver (p : dpkt) | Sent (c : Z) (k : key) (p : dpkt) | Dropped (w : why) | DSilent.
Definition set_visit (p : dpkt) v := {| d_dst := d_dst p; d_src := d_src p; d_rqr := d_rqr p; d_rts := d_rts p; d_ie := d_ie p; d_visit := v |}.
Definition set_ie (p : dpkt) b := {| d_dst := d_dst p; d_src := d_src p; d_rqr := d_rqr p; d_rts := d_rts p; d_ie := b; d_visit := d_visit p |}.
(** 1234-1238. *)
Definition returned (p : dpkt) := {| d_dst := d_src p; d_src := d_dst p; d_rqr := false; d_rts := true; d_ie := false; d_visit := d_visit p |}.
(** 1179-1217: find a way for the packet; src is the circuit of the adjacency
    it came from (pkt.src, None for packets of this node).  The result is the
    reason for failure, with the packet as changed so far, or what was done. *)
Definition attempt (find : Z * Z -> fadj) (maxvisits : Z) (src : option Z) (orig : bool) (p : dpkt) : res (fout + why * dpkt) :=
  match find (d_dst p) with
  | FUnreach => Ok (inr (Unreach, p))
  | FRange => Ok (inr (OutOfRange, p))
  | FTo ASelf => Ok (inl (Deliver p))
  | FTo ((ANbr c _ _) as k) =>
    if orig then
      if d_visit p <? maxvisits then Ok (inl (Sent c k p)) else Ok (inr (Aged, p))
    else
      match src with
      | None => Err EAttr
      | Some sc =>
        let p1 := if sc =? c then p else set_ie p false in
        let limit := if d_rts p then Z.min (maxvisits * 2) 63 else maxvisits in
        if d_visit p1 <? limit then Ok (inl (Sent c k (set_visit p1 (d_visit p1 + 1)))) else Ok (inr (Aged, p1))
      end
  end.
(** 1171-1253.  The recursive call of 1239 is for a packet that has rts set,
    so it does not recurse again. *)
Definition finish (src : option Z) (orig : bool) (w : why) : res fout :=
  if orig then Ok DSilent else match src with None => Err EAttr | Some _ => Ok (Dropped w) end.
Definition forward (find : Z * Z -> fadj) (maxvisits : Z) (src : option Z) (orig : bool) (p : dpkt) : res fout :=
  let* r := attempt find maxvisits src orig p in
  match r with
  | inl o => Ok o
  | inr (w, p1) =>
    if d_rqr p1 && negb (d_rts p1) then
      let* r2 := attempt find maxvisits src false (returned p1) in
      match r2 with inl o => Ok o | inr (w2, _) => finish src false w2 end
    else finish src orig w
  end.
(** 1142-1152: the packet of a local send. *)
Definition own_packet (me dest : Z * Z) (rqr : bool) : dpkt :=
  {| d_dst := dest; d_src := me; d_rqr := rqr; d_rts := false; d_ie := true; d_visit := 0 |}.
Definition send (C : rcfg) (ph4 : bool) (maxvisits : Z) (s : rst) (dest : Z * Z) (rqr : bool) : res fout :=
  forward (findoadj C ph4 s) maxvisits None true (own_packet (r_home C, r_tid C) dest rqr).
