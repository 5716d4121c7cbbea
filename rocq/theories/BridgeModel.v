(** The bridge: pydecnet/decnet/bridge.py. *)
From Verif Require Import Base Dict.

(** AddrEnt.Timeout (bridge.py:74) in timer ticks of JIFFY = 0.1 s
    (common.py:48). *)
Definition addr_timeout : Z := 600.

(** AddrEnt (68-101): the circuit and the tick at which its timer expires.
    Simplification: the timer is reduced to its expiry tick; that the timer
    wheel delivers the timeout not before that tick and not after a restart is
    C03/C04 (TimersProps). *)
Record addrent := { ent_circ : Z; ent_expires : Z }.
(** Bridge: circuits (in dict order, identified by integers), AddrDb keyed by
    MAC address bytes, and the current tick. *)
Record bridge := { circuits : list Z; addrdb : dict (list Z) addrent; now : Z }.

(** Macaddr (s) for a bytes argument (common.py:439-443). *)
Definition macaddr (s : list Z) : res (list Z) := if zlen s =? 6 then Ok s else Err EValue.

(** AddrDb.learn (115-124) with AddrEnt.alive and update (87-95): in all three
    branches the entry ends up with this circuit and a restarted timer. *)
Definition learn (t : Z) (db : dict (list Z) addrent) (a : list Z) (c : Z) : dict (list Z) addrent :=
  match dget leqb db a with
  | Some ent =>
      if ent_circ ent =? c then dset leqb db a {| ent_circ := ent_circ ent; ent_expires := t + addr_timeout |}
      else dset leqb db a {| ent_circ := c; ent_expires := t + addr_timeout |}
  | None => dset leqb db a {| ent_circ := c; ent_expires := t + addr_timeout |}
  end.

(** Bridge.dispatch (183-204).  The output is the list of (circuit, frame)
    passed to send_frame, in order. *)
Definition dispatch (b : bridge) (circ : Z) (packet : list Z) : res (bridge * list (Z * list Z)) :=
  let* dest := macaddr (upto 6 packet) in
  let* src := macaddr (upto 6 (from 6 packet)) in
  if leqb dest src then Ok (b, [])
  else
    let db := learn (now b) (addrdb b) src circ in
    let b' := {| circuits := circuits b; addrdb := db; now := now b |} in
    match dget leqb db dest with
    | Some ent => if ent_circ ent =? circ then Ok (b', []) else Ok (b', [(ent_circ ent, packet)])
    | None => Ok (b', map (fun c => (c, packet)) (filter (fun c => negb (c =? circ)) (circuits b)))
    end.

(** Events: a received frame, a timer tick, the delivery of the timeout of the
    entry for an address (AddrEnt.dispatch 97-101).  A timeout is delivered
    only if the timer has expired since it was last started. *)
Inductive event := Frame (circ : Z) (packet : list Z) | Tick | Timeout (a : list Z).
Definition step (b : bridge) (e : event) : bridge * list (Z * list Z) :=
  match e with
  | Frame c p => match dispatch b c p with Ok r => r | Err _ => (b, []) end
  | Tick => ({| circuits := circuits b; addrdb := addrdb b; now := now b + 1 |}, [])
  | Timeout a =>
      match dget leqb (addrdb b) a with
      | Some ent => if ent_expires ent <=? now b
                    then ({| circuits := circuits b; addrdb := ddel leqb (addrdb b) a; now := now b |}, [])
                    else (b, [])
      | None => (b, [])
      end
  end.
Definition init (circs : list Z) : bridge := {| circuits := circs; addrdb := []; now := 0 |}.
Fixpoint run (b : bridge) (h : list event) : bridge :=
  match h with [] => b | e :: t => run (fst (step b e)) t end.
