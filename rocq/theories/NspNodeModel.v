(** The NSP layer of a node: the table of connections and the receive
    dispatcher, /repo/pydecnet/decnet/nsp.py:89-322 (class NSP), 1526-1559
    (ReservedPort), and the parts of Connection that touch the tables
    (constructor 1016-1094, close 1122-1145).
    Simplifications: the destination of a connection is a node address (no loop
    nodes, whose destination is a circuit); counters and the peak count are left
    out; packets sent to the own node come back as separate events (the work
    queue, see routing.py selfadj.send), like any other packet. *)
From Verif Require Import Base Dict NspPktModel NspModel NspIdModel.

Record nodecfg := mk_nodecfg { nconn : ncfg; own : Z; maxconns : Z }.
(** What the layer does besides what its connections do: a message of the
    reserved port, an exception of connect, the event inv_msg, and (only for the
    statement of theorems) the call of Connection.close. *)
Inductive nout := NReply (dest : Z) (p : npkt) | NRaise (e : nexc) | NBad (src : Z) | NClosed (o : nat).
(** Connection objects are numbered in order of creation; [heap] has all of
    them, also those that are closed and only known to the user. *)
Record nnode := mk_nnode { heap : list conn; conns : dict Z nat; rconns : dict (Z * Z) nat; free : list Z; nlog : list nout }.
Definition set_heap (r : nnode) v : nnode := mk_nnode v (conns r) (rconns r) (free r) (nlog r).
Definition set_conns (r : nnode) v : nnode := mk_nnode (heap r) v (rconns r) (free r) (nlog r).
Definition set_rconns (r : nnode) v : nnode := mk_nnode (heap r) (conns r) v (free r) (nlog r).
Definition set_free (r : nnode) v : nnode := mk_nnode (heap r) (conns r) (rconns r) v (nlog r).
Definition say (r : nnode) (o : nout) : nnode := mk_nnode (heap r) (conns r) (rconns r) (free r) (nlog r ++ [o]).
Definition key_eqb (a b : Z * Z) : bool := (fst a =? fst b) && (snd a =? snd b).

(** Addresses of a packet; ConnInit has dstaddr 0, AckConn has no srcaddr. *)
Definition dst_of (p : npkt) : Z :=
  match p with NData d _ _ _ _ _ _ _ _ | NInt d _ _ _ _ _ | NLs d _ _ _ _ _ _ _ | NAckData d _ _ _ | NAckOther d _ _ _ | NAckConn d
             | NCC d _ _ _ _ _ | NDI d _ _ _ | NDC d _ _ => d | NCI _ _ _ _ _ _ | NEmpty => 0 end.
Definition src_of (p : npkt) : Z :=
  match p with NData _ s _ _ _ _ _ _ _ | NInt _ s _ _ _ _ | NLs _ s _ _ _ _ _ _ | NAckData _ s _ _ | NAckOther _ s _ _
             | NCI _ s _ _ _ _ | NCC _ s _ _ _ _ | NDI _ s _ _ | NDC _ s _ => s | NAckConn _ | NEmpty => 0 end.
Definition is_ackconn (p : npkt) : bool := match p with NAckConn _ => true | _ => false end.
(** t in (NoRes, ConnConf, DiscInit, DiscConf), 213: exact classes, so not the
    subclasses DiscComp (42) and NoLink (41) of DiscConf. *)
Definition sets_addr (p : npkt) : bool :=
  match p with NCC _ _ _ _ _ _ | NDI _ _ _ _ => true | NDC _ _ r => negb ((r =? 42) || (r =? 41)) | _ => false end.
(** Discarded when not mapped, 245-246. *)
Definition silent_type (p : npkt) : bool :=
  match p with NAckConn _ | NDC _ _ _ | NAckData _ _ _ _ | NAckOther _ _ _ _ => true | _ => false end.

(** Connection.close 1122-1145, what it does to the tables, once the state of
    connection [o] went from [c0] to [c1]. *)
Definition settle (cfg : nodecfg) (s : nnode) (o : nat) (c0 c1 : conn) : res nnode :=
  let s := set_heap s (upd o c1 (heap s)) in
  if negb (cstate_eqb (cst c0) Sclosed) && cstate_eqb (cst c1) Sclosed then
    match dget Z.eqb (conns s) (csrc c1) with
    | None => Err EKey
    | Some _ =>
        let s := set_conns s (ddel Z.eqb (conns s) (csrc c1)) in
        let s := if cdst c1 =? 0 then s
                 else set_rconns s (ddel key_eqb (ddel key_eqb (rconns s) (cdest c1, cdst c1)) (own cfg, cdst c1)) in
        Ok (say (set_free s (ret_id (maxconns cfg) (free s) (csrc c1))) (NClosed o))
    end
  else Ok s.
(** Something happens at connection [o]. *)
Definition at_conn (cfg : nodecfg) (s : nnode) (o : nat) (e : cev) : res nnode :=
  match nth_error (heap s) o with
  | None => Err EIndex
  | Some c => let* c1 := cstep (nconn cfg) c e in settle cfg s o c c1
  end.

(** ReservedPort.dispatch 1538-1559. *)
Definition resport (s : nnode) (src : Z) (p : npkt) : nnode :=
  say s (NReply src (NDC (src_of p) (dst_of p) (if is_ci p then 1 else 41))).
(** Mapping of a packet other than ConnInit, 196-240: the connection, if any,
    and the state, since the remote address may be recorded on the way. *)
Definition map_conn (s : nnode) (src : Z) (p : npkt) : option nat * nnode :=
  match dget Z.eqb (conns s) (dst_of p) with
  | None => (None, s)
  | Some o =>
      match nth_error (heap s) o with
      | None => (None, s)
      | Some c =>
          let '(ok, c1, s1) :=
            match cst c with
            | Sci | Scd =>
                if sets_addr p then
                  if cdst c =? 0 then
                    let c1 := set_cdst c (src_of p) in
                    (true, c1, set_heap (set_rconns s (dset key_eqb (rconns s) (src, src_of p) o)) (upd o c1 (heap s)))
                  else (true, c, s)
                else (is_ackconn p, c, s)
            | _ => (negb (is_ackconn p), c, s)
            end in
          if negb ok then (None, s1)
          else if negb (src =? cdest c1) then (None, s1)
          else if negb (is_ackconn p) && negb (src_of p =? cdst c1) then (None, s1)
          else (Some o, s1)
      end
  end.
(** A Connect Initiate that is not a returned one, 181-195 and the inbound
    constructor.  An exception there leads to No Resources; the one that can
    occur is ConnectionLimit (the others: NspNodeProps.inbound_total). *)
Definition new_ci (cfg : nodecfg) (s : nnode) (src : Z) (p : npkt) : res nnode :=
  match dget key_eqb (rconns s) (src, src_of p) with
  | Some o =>
      match nth_error (heap s) o with
      | None => Err EIndex
      | Some c => match cst c with Scr | Scc => at_conn cfg s o (VRecv p) | _ => Ok s end
      end
  | None =>
      match get_id (free s) with
      | None => Ok (resport s src p)
      | Some (i, f) =>
          let* c := conn_inbound (nconn cfg) i src p in
          let o := length (heap s) in
          Ok (mk_nnode (heap s ++ [c]) (dset Z.eqb (conns s) i o) (dset key_eqb (rconns s) (src, src_of p) o) f (nlog s))
      end
  end.
(** NSP.dispatch 146-262, for the bytes of a packet from node [src]; [rts]: it
    is a packet of this node that is being returned. *)
Definition ndispatch (cfg : nodecfg) (s : nnode) (src : Z) (rts : bool) (b : list Z) : res nnode :=
  match decode b with
  | Err EDecode => Ok (say s (NBad src))
  | Err e => Err e
  | Ok NEmpty => Err EAttr (* the base class, without dstaddr *)
  | Ok p =>
      if is_ci p then
        if rts then
          match dget Z.eqb (conns s) (src_of p) with
          | None => Ok s
          | Some o => match nth_error (heap s) o with
                      | None => Err EIndex
                      | Some c => match cst c with Sci => at_conn cfg s o (VRecv p) | _ => Ok s end
                      end
          end
        else new_ci cfg s src p
      else
        match map_conn s src p with
        | (Some o, s1) => at_conn cfg s1 o (VRecv p)
        | (None, s1) => if silent_type p then Ok s1 else Ok (resport s1 src p)
        end
  end.
(** connect 138-144 and the outbound constructor; [dest] is None for a node that
    is not known (UnknownNode, after get_id). *)
Definition nconnect (cfg : nodecfg) (s : nnode) (dest : option Z) (payload : list Z) : res nnode :=
  match get_id (free s) with
  | None => Ok (say s (NRaise ConnectionLimit))
  | Some (i, f) =>
      match dest with
      | None => Ok (say (set_free s f) (NRaise UnknownNode))
      | Some d =>
          let* c := conn_outbound (nconn cfg) i d payload in
          Ok (mk_nnode (heap s ++ [c]) (dset Z.eqb (conns s) i (length (heap s))) (rconns s) f (nlog s))
      end
  end.

(** Events: a packet from the network, connect, and a call of the API or a timer
    of a connection (also one that is closed). *)
Inductive nev := EPkt (src : Z) (rts : bool) (b : list Z) | EConnect (dest : option Z) (payload : list Z) | EUser (o : nat) (e : cev).
Definition nstep (cfg : nodecfg) (s : nnode) (e : nev) : res nnode :=
  match e with
  | EPkt src rts b => ndispatch cfg s src rts b
  | EConnect d x => nconnect cfg s d x
  | EUser o (VRecv _) => Err EType (* packets come through dispatch only *)
  | EUser o v => at_conn cfg s o v
  end.
