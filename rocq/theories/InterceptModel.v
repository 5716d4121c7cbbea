(** Phase II intercept: /repo/pydecnet/decnet/intercept.py:54-424, and its use
    in route_ptp.py:196-212 (send) and 893-917 (receive).

    Node names are lists of character codes, node addresses numbers.  Each
    circuit to a Phase II neighbor has its own intercept object, made when the
    neighbor's init message arrives (route_ptp.py:524-527), so the connection
    table is indexed by the neighbor's link address alone.  Not modelled: log
    messages, events, counters, loop nodes in the node database, the selection
    of the intercept type (426-467), and the parsing of the route header
    (routing_packets.py:595-605, an instance of the generic packet code). *)
From Verif Require Import Base Dict NspPktModel.

(** The neighbor (attributes of PtpCircuit, route_ptp.py:495-518), this node,
    and the node database (Node.nodeinfo_byname, nodeinfo_byid, node.py:145). *)
Record icfg := {
  n_id : Z; n_name : list Z; n_rint : bool;    (* adj.rnodeid = adj.id, rnodename, rint *)
  my_id : Z; my_name : list Z;
  byname : list Z -> option Z; byid : Z -> option (list Z)
}.
(** Packets on the Phase II link: P2BareNSP and RouteHdr. *)
Inductive p2pkt := Bare (payload : list Z) | Routed (dst src payload : list Z).
(** Packets in the routing layer: ShortData, LongData. *)
Record rpkt := { r_dst : Z; r_src : Z; r_rts : bool; r_payload : list Z }.
(** FullIntercept, EndnodeIntercept, NoIntercept. *)
Inductive ikind := IFull | IEnd | INo.

(** isinstance (p, AckHdr): 157-261 of nsp_packets.py; with the source address. *)
Definition ackhdr_src (p : npkt) : option Z :=
  match p with
  | NData _ s _ _ _ _ _ _ _ | NInt _ s _ _ _ _ | NLs _ s _ _ _ _ _ _ | NAckData _ s _ _ | NAckOther _ s _ _ => Some s
  | _ => None
  end.
(** Attributes srcaddr and dstaddr; AckConn and a message without contents have no
    srcaddr: AttributeError. *)
Definition addrs (p : npkt) : res (Z * Z) :=
  match p with
  | NData d s _ _ _ _ _ _ _ | NInt d s _ _ _ _ | NLs d s _ _ _ _ _ _ | NAckData d s _ _ | NAckOther d s _ _
  | NCC d s _ _ _ _ | NDI d s _ _ | NDC d s _ => Ok (d, s)
  | NCI _ s _ _ _ _ => Ok (0, s)
  | NAckConn _ | NEmpty => Err EAttr
  end.
Definition unreach : Z := 39.

(** makedc for a packet with route header, or for a bare NSP message,
    157-223: None for no reply.  [buf = makebytes (buf); NspHdr (buf)]. *)
Definition makedc (c : icfg) (payload src dst : list Z) : res (option p2pkt) :=
  match decode payload with
  | Err EDecode => Ok None
  | Err x => Err x
  | Ok (NDC _ _ _) => Ok None
  | Ok p =>
      let* (d, s) := addrs p in
      let* b := encode (NDC s d unreach) in
      Ok (Some (if n_rint c then Routed src dst b else Bare b))
  end.
(** makedc for a packet with a routing header of ours: nodeinfo_byid is an
    attribute set by BaseIntercept.start (60-68), which nobody calls, so line
    187 raises AttributeError (not KeyError). *)
Definition makedc_rts : res (option p2pkt) := Err EAttr.

(** mapsrc 79-83, 367-378. *)
Definition mapsrc (k : ikind) (c : icfg) (src : list Z) : option Z :=
  match src with
  | [] => Some (n_id c)
  | _ => match k with
         | IEnd => byname c src
         | _ => if leqb src (n_name c) then Some (n_id c) else None
         end
  end.
(** mapdst 85-89, 232-243. *)
Definition mapdst (k : ikind) (c : icfg) (dst : list Z) : option Z :=
  match dst with
  | [] => Some (my_id c)
  | _ => match k with
         | IFull => byname c dst
         | _ => if leqb dst (my_name c) then Some (my_id c) else None
         end
  end.
(** [if not srcid or not dstid] (118): 0 counts as absent. *)
Definition truthy_id (o : option Z) : option Z := match o with Some 0 => None | _ => o end.
(** noroutehdr 91-93, 245-277. *)
Definition noroutehdr (k : ikind) (c : icfg) (db : dict Z Z) (payload : list Z) : res Z :=
  match k with
  | IFull =>
      match decode payload with
      | Err EDecode => Ok (my_id c)
      | Err x => Err x
      | Ok p => match ackhdr_src p with
                | Some s => match dget Z.eqb db s with Some d => Ok d | None => Ok (my_id c) end
                | None => Ok (my_id c)
                end
      end
  | _ => Ok (my_id c)
  end.
(** routehdr 95-97, 279-300. *)
Definition routehdr (k : ikind) (db : dict Z Z) (payload : list Z) (dst : Z) : res (dict Z Z) :=
  match k with
  | IFull =>
      match decode payload with
      | Err EDecode => Ok db
      | Err x => Err x
      | Ok (NCI _ s _ _ _ _) | Ok (NCC _ s _ _ _ _) => Ok (dset Z.eqb db s dst)
      | Ok (NDI _ s _ _) | Ok (NDC _ s _) => Ok (ddel Z.eqb db s)
      | Ok _ => Ok db
      end
  | _ => Ok db
  end.
(** recv 99-139. *)
Inductive rres := RForward (p : rpkt) | RReply (p : option p2pkt).
Definition icpt_recv (k : ikind) (c : icfg) (db : dict Z Z) (p : p2pkt) : res (dict Z Z * rres) :=
  match p with
  | Routed dst src payload =>
      match truthy_id (mapsrc k c src), truthy_id (mapdst k c dst) with
      | Some s, Some d =>
          let* db := routehdr k db payload d in
          Ok (db, RForward {| r_dst := d; r_src := s; r_rts := false; r_payload := payload |})
      | _, _ => let* r := makedc c payload src dst in Ok (db, RReply r)
      end
  | Bare payload =>
      let* d := noroutehdr k c db payload in
      Ok (db, RForward {| r_dst := d; r_src := n_id c; r_rts := false; r_payload := payload |})
  end.

(** send 141-163, 302-342, 380-408. *)
Inductive sres := SSend (p : p2pkt) | SRefuse | SNone.
Definition with_header (c : icfg) (p : rpkt) : res p2pkt :=
  match byid c (r_src p), byid c (r_dst p) with
  | Some s, Some d => Ok (Routed d s (r_payload p))
  | _, _ => Err EKey
  end.
Definition icpt_send (k : ikind) (c : icfg) (db : dict Z Z) (p : rpkt) : res (dict Z Z * sres) :=
  if r_rts p then let* r := makedc_rts in Ok (db, match r with Some q => SSend q | None => SNone end)
  else
    match k with
    | INo => if negb (r_dst p =? n_id c) || negb (r_src p =? my_id c) then Ok (db, SRefuse) else Ok (db, SSend (Bare (r_payload p)))
    | IEnd =>
        if negb (r_src p =? my_id c) then Ok (db, SRefuse)
        else if negb (r_dst p =? n_id c) then let* q := with_header c p in Ok (db, SSend q)
        else Ok (db, SSend (Bare (r_payload p)))
    | IFull =>
        if negb (r_dst p =? n_id c) then Ok (db, SRefuse)
        else
          match decode (r_payload p) with
          | Err EDecode => Ok (db, SNone)
          | Err x => Err x
          | Ok m =>
              let db := match m with NDI d s _ _ | NDC d s _ => ddel Z.eqb (ddel Z.eqb db s) d | _ => db end in
              if negb (r_src p =? my_id c) && (match ackhdr_src m with None => true | Some _ => false end) then
                let* q := with_header c p in Ok (db, SSend q)
              else Ok (db, SSend (Bare (r_payload p)))
          end
    end.

(** What becomes of a forwarded packet: Phase2Routing.dispatch (routing.py:
    786-792) gives every one to NSP; the routers of later phases forward by
    destination (ForwardModel). *)
Inductive fate := ToNsp | ToNode (n : Z).
Definition p2_dispatch (p : rpkt) : fate := ToNsp.

(** A circuit's history. *)
Inductive istep := IRecv (p : p2pkt) | ISend (p : rpkt).
Inductive iout := ORecv (r : rres) | OSend (r : sres).
Definition icpt_step (k : ikind) (c : icfg) (db : dict Z Z) (x : istep) : res (dict Z Z * iout) :=
  match x with
  | IRecv p => let* (db, r) := icpt_recv k c db p in Ok (db, ORecv r)
  | ISend p => let* (db, r) := icpt_send k c db p in Ok (db, OSend r)
  end.
Fixpoint icpt_run (k : ikind) (c : icfg) (db : dict Z Z) (l : list istep) : res (dict Z Z * list iout) :=
  match l with
  | [] => Ok (db, [])
  | x :: t => let* (db, o) := icpt_step k c db x in let* (db, os) := icpt_run k c db t in Ok (db, o :: os)
  end.
