(** A network of level 1 routers exchanging routing messages, built from the
    router of RoutingModel (routing.py:937-1038 for receipt and decision,
    1547-1704 for the update process).

    The routers of one area are named by their node number.  A link is a
    sender, a receiver and the circuit of the receiver; it carries messages
    in order but may lose them.  A message holds the sender's minimum vector
    entries for some destinations (all of them for the periodic update, the
    flagged ones otherwise, 1634-1704); the receiver adds one hop and its
    circuit cost (routing_packets.py:392-402).  Message formats are the
    subject of RouteMsgModel and not repeated here; adjacencies do not come
    and go during the run considered here. *)
From Verif Require Import Base Dict RoutingModel.

Definition link : Type := Z * Z * Z.          (* sender, receiver, receiving circuit *)
Definition link_eqb (a b : link) : bool :=
  let '(m, n, c) := a in let '(m', n', c') := b in (m =? m') && (n =? n') && (c =? c').
(** A message with the time it was sent (not seen by the routers). *)
Record msg := { g_time : nat; g_ents : list (Z * (Z * Z)) }.
Record net := { n_rt : Z -> rst; n_ch : link -> list msg }.
Inductive nev := NSend (k : link) (dests : list Z) | NRecv (k : link) | NLose (k : link).

(** Entries taken from the minimum vectors of the sender, 1660-1690. *)
Definition snap (s : rst) (dests : list Z) : list (Z * (Z * Z)) := map (fun i => (i, min1 s i)) dests.
(** What the receiver makes of them (routing_packets.py:392-402). *)
Definition add_hop (w : Z) (l : list (Z * (Z * Z))) : list (Z * (Z * Z)) :=
  map (fun e => (fst e, (fst (snd e) + 1, snd (snd e) + w))) l.
Definition set_rt (f : Z -> rst) (n : Z) (s : rst) : Z -> rst := fun m => if m =? n then s else f m.
Definition set_ch (f : link -> list msg) (k : link) (l : list msg) : link -> list msg := fun x => if link_eqb x k then l else f x.
(** One event at time t.  Receiving from an empty link does nothing. *)
Definition nstep (home : Z) (cf : Z -> rcfg) (t : nat) (N : net) (e : nev) : res net :=
  match e with
  | NSend ((m, _, _) as k) dests =>
    Ok {| n_rt := n_rt N; n_ch := set_ch (n_ch N) k (n_ch N k ++ [{| g_time := t; g_ents := snap (n_rt N m) dests |}]) |}
  | NRecv ((m, n, c) as k) =>
    match n_ch N k with
    | [] => Ok N
    | g :: rest =>
      let* (s, _) := rstep (cf n) (n_rt N n) (Msg1 c home m (add_hop (r_cost (cf n) c) (g_ents g))) in
      Ok {| n_rt := set_rt (n_rt N) n s; n_ch := set_ch (n_ch N) k rest |}
    end
  | NLose k => Ok {| n_rt := n_rt N; n_ch := set_ch (n_ch N) k (tl (n_ch N k)) |}
  end.
