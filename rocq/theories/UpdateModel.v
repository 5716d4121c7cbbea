(** When routing updates are sent: routing.py 1547-1632 (class Update: setsrm,
    update_soon, dispatch), with buildupdates from RouteMsgModel.v.  Times are in
    milliseconds.  The timer is the one of timers.py (see TimersModel.v): started
    with a timeout it fires on a tick, and only then; the work item is handled some
    time later.  The neighbour and the routing tables are inputs of each event.
    Left out: datalink.send itself, logging. *)
From Verif Require Import Base RouteMsgModel.

(** common.py 31 and 48. *)
Definition T2 : Z := 1000.
Definition jiffy : Z := 100.
(** ntype of the circuit, which on a LAN is that of this node (routing.py 244-281),
    on a point to point circuit that of the neighbour. *)
Inductive ntype := NUnknown | NEnd | NPh2 | NL1 | NL2.
Record nbr := mkNbr { nb_ptp : bool; nb_type : ntype; nb_home : bool (* in the own area *); nb_ph3 : bool (* one of the two is Phase III *) }.
Inductive fmt := Fmt3 | Fmt4.
(** 1594-1611: what the neighbour is sent, if anything. *)
Definition wants (lv : level) (n : nbr) : option fmt :=
  match nb_type n with
  | NUnknown | NEnd | NPh2 => None
  | ty =>
      if nb_ptp n then
        match lv with
        | L2 => match ty with NL2 => Some Fmt4 | _ => None end
        | L1 => if match ty with NL2 => negb (nb_home n) | _ => false end then None
                else if nb_ph3 n then Some Fmt3 else Some Fmt4
        end
      else Some Fmt4
  end.
(** A routing update as handed to the datalink. *)
Inductive upkt := U3 (l : list Z) | U4 (l : list seg).
Record ust := mkU { u_srm : list bool; u_any : bool; u_hold : bool; u_lastup : Z; u_lastfull : Z; u_pos : Z;
  u_timer : option (Z * Z) (* when started, timeout *) }.
(** 1550-1563. *)
Definition ustart (n : nat) (t1 now : Z) : ust := mkU (repeat false n) false false 0 0 0 (Some (now, t1)).
(** srm[i] = 1. *)
Fixpoint set1 (n : nat) (l : list bool) : res (list bool) :=
  match l, n with [], _ => Err EIndex | _ :: t, O => Ok (true :: t) | b :: t, S m => let* t1 := set1 m t in Ok (b :: t1) end.
Fixpoint setall (l : list bool) (is : list Z) : res (list bool) :=
  match is with [] => Ok l | i :: t => let* l1 := set1 (Z.to_nat i) l in setall l1 t end.
(** update_soon, 1580-1586. *)
Definition soon (now : Z) (s : ust) : ust :=
  if u_hold s then s
  else mkU (u_srm s) (u_any s) true (u_lastup s) (u_lastfull s) (u_pos s) (Some (now, Z.max (T2 - (now - u_lastup s)) 0)).
(** setsrm, 1565-1578. *)
Definition setsrm (n : nbr) (now tid : Z) (endtid : option Z) (s : ust) : res ust :=
  match nb_type n with
  | NEnd | NPh2 => Ok s
  | _ =>
      let e := match endtid with Some e => if e =? 0 then tid else e | None => tid end in
      let* srm := setall (u_srm s) (zrange tid (e + 1)) in
      Ok (soon now (mkU srm true (u_hold s) (u_lastup s) (u_lastfull s) (u_pos s) (u_timer s)))
  end.
(** The tables an update is built from: minhops, mincost, minrouterblk. *)
Record tables := mkT { t_hops : list Z; t_cost : list Z; t_blk : Z }.
(** for i in range (1, len (minhops)): srm[i] = 0 (1698-1699). *)
Definition clear_from1 (l : list bool) : list bool := match l with [] => [] | b :: t => b :: map (fun _ => false) t end.
(** buildupdates with either packet type. *)
Definition build (lv : level) (f : fmt) (T : tables) (srm : list bool) (complete : bool) : res (list upkt * list bool) :=
  match f with
  | Fmt4 => let* (p, s) := build4 lv (t_blk T) (t_hops T) (t_cost T) srm complete in Ok (map U4 p, s)
  | Fmt3 => Ok ([U3 (build3 (t_hops T) (t_cost T))], clear_from1 srm)
  end.
(** What is sent: when, whether it is the periodic one, the packets in order. *)
Record sent := mkSent { s_time : Z; s_full : bool; s_pkts : list upkt }.
Definition rotate (k : Z) (l : list upkt) : list upkt := skipn (Z.to_nat k) l ++ firstn (Z.to_nat k) l.
(** dispatch of a Timeout, 1588-1632.  The timer is not running when it comes. *)
Definition fire (lv : level) (t1 : Z) (n : nbr) (T : tables) (now : Z) (s : ust) : res (ust * option sent) :=
  match wants lv n with
  | None => Ok (mkU (u_srm s) (u_any s) false (u_lastup s) (u_lastfull s) (u_pos s) None, None)
  | Some f =>
      let* (pkts, srm) := build lv f T (u_srm s) (negb (u_any s)) in
      let pos := u_pos s + 1 in
      if zlen pkts =? 0 then Err EValue (* ZeroDivisionError *)
      else
        let out := rotate (pos mod zlen pkts) pkts in
        let full := if u_any s then u_lastfull s else now in
        let delta := if u_any s then Z.min (now - u_lastfull s) t1 else t1 in
        Ok (mkU srm false false now full pos (Some (now, delta)), Some (mkSent now (negb (u_any s)) out))
  end.
Inductive uev := USet (now : Z) (n : nbr) (tid : Z) (endtid : option Z) | UFire (now : Z) (n : nbr) (T : tables).
Definition ev_time (e : uev) : Z := match e with USet t _ _ _ => t | UFire t _ _ => t end.
Definition ustep (lv : level) (t1 : Z) (s : ust) (e : uev) : res (ust * list sent) :=
  match e with
  | USet now n tid endtid => let* s1 := setsrm n now tid endtid s in Ok (s1, [])
  | UFire now n T => let* (s1, o) := fire lv t1 n T now s in Ok (s1, match o with Some x => [x] | None => [] end)
  end.
Fixpoint usteps (lv : level) (t1 : Z) (s : ust) (l : list uev) : res (ust * list sent) :=
  match l with
  | [] => Ok (s, [])
  | e :: t => let* (s1, o1) := ustep lv t1 s e in let* (s2, o2) := usteps lv t1 s1 t in Ok (s2, o1 ++ o2)
  end.
(** timers.py 154: a timeout in ticks. *)
Definition ticks (d : Z) : Z := Z.max 1 (d / jiffy).
(** The timer's part: it fires when that many ticks have come, the first of
    which is up to one tick away, and is handled at most [lag] later; nothing is
    handled before it that comes later. *)
Definition in_time (lag now : Z) (s : ust) (e : uev) : Prop :=
  now <= ev_time e /\
  match u_timer s with
  | Some (t0, d) => ev_time e <= t0 + ticks d * jiffy + lag /\ match e with UFire t _ _ => t0 + (ticks d - 1) * jiffy < t | _ => True end
  | None => match e with UFire _ _ _ => False | _ => True end
  end.
Fixpoint timely (lv : level) (t1 lag now : Z) (s : ust) (l : list uev) : Prop :=
  match l with
  | [] => True
  | e :: t => in_time lag now s e /\ forall s1 o, ustep lv t1 s e = Ok (s1, o) -> timely lv t1 lag (ev_time e) s1 t
  end.
