(** When hello messages are sent and when a silent neighbour is dropped:
    route_eth.py 80-82, 491-517, 712-737 (RoutingLanCircuit: sendhello, newhello,
    Timeout), 318-336 (endnode), route_ptp.py 919-962 (point to point), adjacency.py
    32-36, 84-107 (listen timer), timers.py 145-165 (start).  Times are in
    milliseconds; what the timer does is described in UpdateModel.v.  What is in the
    hello messages and what becomes of the adjacency is in LanCircModel.v and
    PtpModel.v. *)
From Verif Require Import Base UpdateModel.

(** node.py 178, timers.py 132: the wheel has int ((3600 + 1) / 0.1) places. *)
Definition places : Z := 36010.
(** timers.py 145-165; the timeout in milliseconds. *)
Definition tstart (now d : Z) : res (option (Z * Z)) := if places <=? ticks d then Err EOverflow else Ok (Some (now, d)).

(** * Sending *)
(** lasthello, holdoff, the timer. *)
Record hst := mkH { h_last : Z; h_hold : bool; h_timer : option (Z * Z) }.
(** sendhello, 491-507; [t3] in seconds. *)
Definition sendhello (t3 now : Z) : res (hst * list Z) := let* tm := tstart now (t3 * 1000) in Ok (mkH now false tm, [now]).
(** newhello, 726-737: what is in the hello has changed. *)
Definition newhello (t3 now : Z) (s : hst) : res (hst * list Z) :=
  let deltat := now - h_last s in
  if deltat <? T2 then
    if h_hold s then Ok (s, [])
    else let* tm := tstart now deltat in Ok (mkH (h_last s) true tm, [])
  else sendhello t3 now.
(** A change, and the timeout, where calcdr may find that something has
    changed (515-517).  Endnodes and point to point circuits have no changes. *)
Inductive hev := HChange (now : Z) | HFire (now : Z) (chg : bool).
Definition hev_time (e : hev) : Z := match e with HChange t => t | HFire t _ => t end.
Definition hstep (t3 : Z) (s : hst) (e : hev) : res (hst * list Z) :=
  match e with
  | HChange now => newhello t3 now s
  | HFire now chg =>
      let s0 := mkH (h_last s) (h_hold s) None in
      let* (s1, o1) := if chg then newhello t3 now s0 else Ok (s0, []) in
      let* (s2, o2) := sendhello t3 now in Ok (s2, o1 ++ o2)
  end.
Fixpoint hsteps (t3 : Z) (s : hst) (l : list hev) : res (hst * list Z) :=
  match l with
  | [] => Ok (s, [])
  | e :: t => let* (s1, o1) := hstep t3 s e in let* (s2, o2) := hsteps t3 s1 t in Ok (s2, o1 ++ o2)
  end.
(** When events can be (see in_time in UpdateModel.v). *)
Definition due (lag now : Z) (tm : option (Z * Z)) (t : Z) (fires : bool) : Prop :=
  now <= t /\
  match tm with
  | Some (t0, d) => t <= t0 + ticks d * jiffy + lag /\ (fires = true -> t0 + (ticks d - 1) * jiffy < t)
  | None => fires = false
  end.
Definition hfires (e : hev) : bool := match e with HFire _ _ => true | _ => false end.
Fixpoint htimely (t3 lag now : Z) (s : hst) (l : list hev) : Prop :=
  match l with
  | [] => True
  | e :: t => due lag now (h_timer s) (hev_time e) (hfires e) /\ forall s1 o, hstep t3 s e = Ok (s1, o) -> htimely t3 lag (hev_time e) s1 t
  end.

(** * Listening *)
(** BCT3MULT and PTP_T3MULT, common.py 38-39, in tenths. *)
Inductive ckind := Lan | Ptp.
Definition mult (k : ckind) : Z := match k with Lan => 31 | Ptp => 21 end.
(** adjacency.py 33-36, in seconds: from the timer the neighbour tells, or, if
    it tells none (Phase III), from the own one. *)
Definition listen (k : ckind) (told own : Z) : Z := let t := told * mult k / 10 in if t =? 0 then own * mult k / 10 else t.
(** alive, up: the listen timer is started; dispatch: it has expired. *)
Inductive rev_ := RHeard (now : Z) | RExpire (now : Z).
Definition rev_time (e : rev_) : Z := match e with RHeard t => t | RExpire t => t end.
Definition rfires (e : rev_) : bool := match e with RExpire _ => true | _ => false end.
(** The state is the timer; without one the adjacency is gone. *)
Definition rstep (t4 : Z) (s : option (Z * Z)) (e : rev_) : res (option (Z * Z)) :=
  match e with
  | RHeard now => match s with Some _ => tstart now (t4 * 1000) | None => Ok None end
  | RExpire _ => Ok None
  end.
Fixpoint rsteps (t4 : Z) (s : option (Z * Z)) (l : list rev_) : res (option (Z * Z)) :=
  match l with [] => Ok s | e :: t => let* s1 := rstep t4 s e in rsteps t4 s1 t end.
Fixpoint rtimely (t4 lag now : Z) (s : option (Z * Z)) (l : list rev_) : Prop :=
  match l with
  | [] => True
  | e :: t => due lag now s (rev_time e) (rfires e) /\ forall s1, rstep t4 s e = Ok s1 -> rtimely t4 lag (rev_time e) s1 t
  end.
