(** The MOP console carrier: /repo/pydecnet/decnet/mop.py,
    CarrierClientConnection (865-1097, the states from the end of [reserve] on),
    CarrierServer (1115-1204).

    A command and a response are their sequence bit and payload.  The pseudo
    terminal is an oracle: each os.write takes some first bytes or fails, each
    os.read returns some bytes or fails.  The LAN keeps the frames of each
    direction in order and may lose any of them.  The times of the poll and
    reservation timers are left out: they may expire at any point.  The
    reservation itself (RequestId, SysId, ConsoleRequest) is left out, except
    for the start of the client. *)
From Verif Require Import Base.

Definition frame := (Z * list Z)%type.
(** 1031-1047: seq, the payload of msg (its sequence bit is seq), pendinginput,
    retries; [cup]: not closed. *)
Record client := { cseq : Z; cmsg : option (list Z); cpend : list Z; cretries : Z; cup : bool }.
(** 1121-1131: seq, pendinginput, pendingoutput, response; [sup]: not released. *)
Record server := { sseq : Z; spend : list Z; sout : list Z; sresp : option frame; sup : bool }.
Record world := { wc : client; ws : server; to_s : list frame; to_c : list frame }.
Inductive kout :=
  | OPost (d : list Z)      (* keyboard input accepted from the API client *)
  | OPoll (p : list Z)      (* a new command *)
  | ORepoll                 (* the same command again *)
  | OData (d : list Z)      (* console output given to the API client *)
  | ODisc                   (* disconnect, "no response" *)
  | OWrite (d : list Z)     (* input taken by the terminal *)
  | OLost (d : list Z)      (* input dropped because the write failed *)
  | ORead (d : list Z).     (* terminal output put into a response *)

(** The start of a client connection, 880-900, as far as MopCircuit.request
    (579-606) for the RequestId: its receipt is None. *)
Definition carrier_start (known : bool) (busy : bool) : res bool :=
  if negb known then Ok false else if busy then Ok false else Err EAttr.

(** sendpoll 1003-1018 and sendmsg 902-908. *)
Definition sendpoll (size : Z) (c : client) : client * frame * list kout :=
  match cmsg c with
  | Some p => (c, (cseq c, p), [ORepoll])
  | None =>
    let s := Z.lxor (cseq c) 1 in
    let p := upto size (cpend c) in
    ({| cseq := s; cmsg := Some p; cpend := from size (cpend c); cretries := 5; cup := cup c |}, (s, p), [OPoll p])
  end.
(** The end of [reserve], 978-983. *)
Definition client0 : client := {| cseq := 0; cmsg := None; cpend := []; cretries := 5; cup := true |}.
Definition server0 : server := {| sseq := 0; spend := []; sout := []; sresp := None; sup := true |}.
Definition again (size : Z) (c : client) : client * list frame * list kout :=
  (* 1047-1055 *)
  let r := cretries c - 1 in
  let c1 := {| cseq := cseq c; cmsg := cmsg c; cpend := cpend c; cretries := r; cup := cup c |} in
  if r =? 0 then ({| cseq := cseq c; cmsg := None; cpend := cpend c; cretries := r; cup := false |}, [], [ODisc])
  else let '(c2, f, o) := sendpoll size c1 in (c2, [f], o).
(** [active] 1026-1066: a response, a timeout, input. *)
Definition c_response (size : Z) (c : client) (f : frame) : client * list frame * list kout :=
  if negb (cup c) then (c, [], [])
  else if fst f =? cseq c then
    let o := match snd f with [] => [] | d => [OData d] end in
    let c1 := {| cseq := cseq c; cmsg := None; cpend := cpend c; cretries := 5; cup := true |} in
    match cpend c with
    | [] => (c1, [], o)
    | _ => let '(c2, f2, o2) := sendpoll size c1 in (c2, [f2], o ++ o2)
    end
  else again size c.
Definition c_timeout (size : Z) (c : client) : client * list frame * list kout :=
  if negb (cup c) then (c, [], []) else again size c.
Definition c_post (size : Z) (c : client) (d : list Z) : client * list frame * list kout :=
  if negb (cup c) then (c, [], [])
  else
    let busy := match cpend c, cmsg c with [], None => false | _, _ => true end in
    let c1 := {| cseq := cseq c; cmsg := cmsg c; cpend := if busy then cpend c ++ d else d; cretries := cretries c; cup := true |} in
    if busy then (c1, [], [OPost d])
    else let '(c2, f, o) := sendpoll size c1 in (c2, [f], OPost d :: o).
(** CarrierServer.dispatch of a command, 1179-1204.  [w] is the count returned
    by os.write, [r] the data of os.read; None is an exception. *)
Definition msgsize : Z := 512.
Definition s_command (s : server) (f : frame) (w : option Z) (r : option (list Z)) : server * list frame * list kout :=
  if negb (sup s) then (s, [], [])
  else if fst f =? sseq s then (s, match sresp s with Some q => [q] | None => [] end, [])
  else
    let inp := spend s ++ snd f in
    let accepted := match w with Some n => n | None => zlen inp end in
    let q := Z.lxor (sseq s) 1 in
    let out := if zlen (sout s) <? msgsize then match r with Some d => sout s ++ upto (msgsize - zlen (sout s)) d | None => sout s end else sout s in
    ({| sseq := q; spend := from accepted inp; sout := []; sresp := Some (q, out); sup := true |}, [(q, out)],
     [match w with Some _ => OWrite (upto accepted inp) | None => OLost inp end; ORead out]).

Inductive kev :=
  | KPost (d : list Z) | KTimeout | KToServer (w : option Z) (r : option (list Z)) | KToClient | KLoseToServer | KLoseToClient
  | KRelease.   (* the reservation timer expires, or a release arrives: 1166-1169, 1177-1178 *)
Definition kstep (size : Z) (k : world) (e : kev) : world * list kout :=
  let put '(c, fs, o) ts tc := ({| wc := c; ws := ws k; to_s := ts ++ fs; to_c := tc |}, o) in
  match e with
  | KPost d => put (c_post size (wc k) d) (to_s k) (to_c k)
  | KTimeout => put (c_timeout size (wc k)) (to_s k) (to_c k)
  | KToClient => match to_c k with [] => (k, []) | f :: t => put (c_response size (wc k) f) (to_s k) t end
  | KToServer w r =>
    match to_s k with
    | [] => (k, [])
    | f :: t => let '(s, fs, o) := s_command (ws k) f w r in ({| wc := wc k; ws := s; to_s := t; to_c := to_c k ++ fs |}, o)
    end
  | KLoseToServer => ({| wc := wc k; ws := ws k; to_s := from 1 (to_s k); to_c := to_c k |}, [])
  | KLoseToClient => ({| wc := wc k; ws := ws k; to_s := to_s k; to_c := from 1 (to_c k) |}, [])
  | KRelease => ({| wc := wc k; ws := {| sseq := sseq (ws k); spend := spend (ws k); sout := sout (ws k); sresp := sresp (ws k); sup := false |}; to_s := to_s k; to_c := to_c k |}, [])
  end.
Fixpoint krun (size : Z) (k : world) (l : list kev) : world * list kout :=
  match l with [] => (k, []) | e :: t => let '(k1, o1) := kstep size k e in let '(k2, o2) := krun size k1 t in (k2, o1 ++ o2) end.
(** Reserved: the client sends its first poll. *)
Definition carrier (size : Z) (l : list kev) : world * list kout :=
  let '(c, f, o) := sendpoll size client0 in
  let '(k, o2) := krun size {| wc := c; ws := server0; to_s := [f]; to_c := [] |} l in (k, o ++ o2).
