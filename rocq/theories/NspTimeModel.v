(** How long NSP waits for an acknowledgement before it sends a message again:
    nsp.py 538-616 (txqentry), 1332-1357 (update_delay, acktimeout), 764-773
    (Subchannel.close), timers.py 145-165.  Times are rational numbers of seconds;
    the code uses floats, whose rounding is not modelled.  What is in the messages, and
    how often one is sent, is in NspModel.v. *)
From Coq Require Import QArith Qround.
From Verif Require Import Base.
Open Scope Q_scope.

(** config.py 377-387: nsp_weight (1..255), nsp_delay (a float that is not
    checked), retransmits (2..15). *)
Record tcfg := mkT { nweight : Z; nfactor : Q; ntries : Z }.
(** * The estimate *)
(** update_delay, 1332-1352, for a measured time [delta]; 0 is no estimate yet.
    The destination is a real node (a loop node has no estimate, 1333). *)
Definition update_delay (c : tcfg) (delta d : Q) : Q :=
  let delta := if Qle_bool 1 delta then delta else 1 in
  let d1 := if Qeq_bool d 0 then delta else d + (delta - d) / inject_Z (nweight c + 1) in
  if Qle_bool d1 5 then d1 else 5.
(** acktimeout, 1354-1357. *)
Definition acktimeout (c : tcfg) (d : Q) : Q := if Qeq_bool d 0 then 2 else d * nfactor c.

(** * One message *)
(** tries, txtime (None is 0), the timer (when and with what it was started),
    sent, and what became of it. *)
Inductive fate := Waiting | Acked | GivenUp.
Record xst := mkX { x_tries : Z; x_time : option Q; x_timer : option (Q * Q); x_sent : bool; x_fate : fate }.
(** 550-556. *)
Definition xnew : xst := mkX 0 None None false Waiting.
(** Whether the packet is a Connect Initiate, a data segment, and asks for no
    delay measurement (pkt.dly). *)
Record xpkt := mkP { p_ci : bool; p_data : bool; p_dly : bool }.
(** send, 558-576. *)
Definition xsend (c : tcfg) (p : xpkt) (d now : Q) (s : xst) : xst :=
  mkX (x_tries s + 1) (match x_time s with None => if p_dly p then None else Some now | t => t end)
    (Some (now, acktimeout c d)) true (x_fate s).
(** ack, 578-582, which is also done to every message that is not acknowledged
    when the connection is closed (1143, 768), as after the last try. *)
Definition measured (c : tcfg) (s : xst) (now d : Q) : Q := match x_time s with Some t => update_delay c (now - t) d | None => d end.
(** The timeout of the message with flow_ok being [ok] (584-616); the message
    being sent when flow control allows it again (send_blocked, 888-905); its
    acknowledgement or the closing of the connection (578-582, 759, 769); and
    other messages to the same node being measured. *)
Inductive xev := XTimeout (now : Q) (ok : bool) | XFlow (now : Q) | XAck (now : Q) | XOther (now delta : Q).
Definition xev_time (e : xev) : Q := match e with XTimeout t _ => t | XFlow t => t | XAck t => t | XOther t _ => t end.
(** The state: the message and the estimate.  The list has the times the
    message is sent at. *)
Definition xstep (c : tcfg) (p : xpkt) (sd : xst * Q) (e : xev) : (xst * Q) * list Q :=
  let (s, d) := sd in
  match x_fate s, e with
  | _, XOther _ delta => ((s, update_delay c delta d), [])
  | Waiting, XTimeout now ok =>
      let s := mkX (x_tries s) (x_time s) None (x_sent s) (x_fate s) in
      if (ntries c <=? x_tries s)%Z then
        if p_ci p then ((s, d), []) else ((mkX (x_tries s) (x_time s) None (x_sent s) GivenUp, measured c s now d), [])
      else
        let s := mkX (x_tries s) (x_time s) None false (x_fate s) in
        if negb (p_data p) || ok then ((xsend c p d now s, d), [now]) else ((s, d), [])
  | Waiting, XFlow now => if x_sent s then ((s, d), []) else ((xsend c p d now s, d), [now])
  | Waiting, XAck now =>
      ((mkX (x_tries s) (x_time s) None (x_sent s) Acked, measured c s now d), [])
  | _, _ => ((s, d), [])
  end.
Fixpoint xsteps (c : tcfg) (p : xpkt) (sd : xst * Q) (l : list xev) : (xst * Q) * list Q :=
  match l with [] => (sd, []) | e :: t => let (sd1, o1) := xstep c p sd e in let (sd2, o2) := xsteps c p sd1 t in (sd2, o1 ++ o2) end.
(** timers.py 154: ticks of a tenth of a second, at least one.  The timer fires
    on a tick, the first of which may be at once, and the timeout is handled at
    most [lag] later (see UpdateModel.v). *)
Definition qticks (d : Q) : Z := Z.max 1 (Qfloor (d * 10)).
Definition xfires (e : xev) : bool := match e with XTimeout _ _ => true | _ => false end.
Definition xdue (lag now : Q) (tm : option (Q * Q)) (t : Q) (fires : bool) : Prop :=
  now <= t /\
  match tm with
  | Some (t0, d) => t <= t0 + inject_Z (qticks d) / 10 + lag /\ (fires = true -> t0 + inject_Z (qticks d - 1) / 10 < t)
  | None => fires = false
  end.
Fixpoint xtimely (c : tcfg) (p : xpkt) (lag now : Q) (sd : xst * Q) (l : list xev) : Prop :=
  match l with
  | [] => True
  | e :: t => xdue lag now (x_timer (fst sd)) (xev_time e) (xfires e) /\ xtimely c p lag (xev_time e) (fst (xstep c p sd e)) t
  end.
