(** Point to point circuits: /repo/pydecnet/decnet/route_ptp.py, class PtpCircuit
    (55-974), with statemachine.py:49-78 and adjacency.py:84-107.

    Packets are modelled after parsing.  What parsing with the packet classes of
    the current state gives, and what parsing with the base class gives, are
    part of the event (the codecs are C06, C07, C24).  Node addresses are
    numbers area * 1024 + tid.  Counters, events and the block size handling are
    not modelled; intercept.recv is an oracle (C53).  The work queue is not
    modelled: what restart and the init workaround queue is an output, and the
    corresponding event may come at any time. *)
From Verif Require Import Base RoutingModel.

Inductive pkt :=
  | PInit4 (src : Z) (t : ntype) (blo : bool) (verif : bool)              (* PtpInit *)
  | PInit3 (src : Z) (t : ntype) (blk : Z) (verif : bool)   (* PtpInit3 *)
  | PInitX                                                  (* PtpInit34 of another version *)
  | PNodeInit (src : Z) (name : list Z) (verif : bool)
  | PNodeVerify (pw : list Z)
  | PVerify (src : Z) (val : list Z)
  | PHello (src : Z) (testok : bool)                        (* testdata_re matches *)
  | PShort (src dst : Z) | PLong (src dst : Z)
  | PL1 (src : Z) | PL2 (src : Z) | PP3 (src : Z)           (* routing messages *)
  | P2Hdr | P2Bare | PNop                                   (* Phase II *)
  | POther.                                                 (* any other class *)
Inductive outcome := OPkt (p : pkt) | OChk | OBad.          (* parsed, ChecksumError, other exception *)
Inductive pstate := SHa | SDs | SRi | SRv | SRv2 | SRu4l2 | SRu4l1 | SRu4e | SRu3r | SRu3e | SRu2.
(** isrustate, 136-137. *)
Definition running (s : pstate) : bool := match s with SHa | SDs | SRi | SRv | SRv2 => false | _ => true end.
(** Configuration: phase, node type, home area, own tid, limits, whether the
    datalink can restart (start_works), whether verification is required
    (config.verify), and the node database: inbound and outbound passwords by
    address, address by name. *)
Record pcfg := { c_phase : Z; c_type : ntype; c_area : Z; c_tid : Z; c_maxnodes : Z; c_maxarea : Z; c_works : bool; c_verify : bool;
                 c_iverif : Z -> option (list Z); c_overif : Z -> option (list Z); c_name : list Z -> option Z }.
(** State: state machine state, neighbour address, phase and type (None:
    UNKNOWN), whether there is an adjacency object and its listen timer runs,
    the password expected (self.verif), lastsend (None: attribute not there yet;
    else whether it is an init message), nrec (None: attribute not there yet). *)
Record ps := { st : pstate; nid : Z; rph : Z; nty : option ntype; adj : bool; tmr : bool; pw : option (list Z); linit : option bool; nrec : option Z }.
Inductive smsg := SInit | SInit2 | SInit3 | SVerify (v : list Z) | SVerify2 (v : list Z) | SHello | SIntercept.
Inductive pout := PUp (id : Z) | PDown (id : Z) | PPass (p : pkt) | PSend (x : smsg) | PDlRestart | PDlOpen | PDlClose | PQueueUp | PRequeue (p : pkt).
Inductive pev :=
  | EIgnored                                         (* empty or badly padded packet, 226-261 *)
  | ERecv (p1 p2 : outcome) (iok isend : bool)       (* p1: parsed by the class of the state, p2: by the base class *)
  | EParsed (p : pkt) (iok isend : bool)             (* a requeued packet, 230-232 *)
  | EDl (up : bool) | ETimeout | EStart | EStop | EAdjTimeout.
Definition pstart : ps := {| st := SHa; nid := 0; rph := 0; nty := None; adj := false; tmr := false; pw := None; linit := None; nrec := None |}.

Definition withst s x := {| st := x; nid := nid s; rph := rph s; nty := nty s; adj := adj s; tmr := tmr s; pw := pw s; linit := linit s; nrec := nrec s |}.
Definition withadj s x t := {| st := st s; nid := nid s; rph := rph s; nty := nty s; adj := x; tmr := t; pw := pw s; linit := linit s; nrec := nrec s |}.
Definition withpw s x := {| st := st s; nid := nid s; rph := rph s; nty := nty s; adj := adj s; tmr := tmr s; pw := x; linit := linit s; nrec := nrec s |}.
Definition withlinit s x := {| st := st s; nid := nid s; rph := rph s; nty := nty s; adj := adj s; tmr := tmr s; pw := pw s; linit := x; nrec := nrec s |}.
Definition withnrec s x := {| st := st s; nid := nid s; rph := rph s; nty := nty s; adj := adj s; tmr := tmr s; pw := pw s; linit := linit s; nrec := x |}.
Definition withneigh s i r t := {| st := st s; nid := i; rph := r; nty := t; adj := adj s; tmr := tmr s; pw := pw s; linit := linit s; nrec := nrec s |}.

(** The packets each state takes (the setpackets decorations); the classes that
    share the first byte are all taken.  In ru2 a Node Init or Verify is taken
    as data (P2BareNSP, mask 0x83). *)
Definition takes (s : pstate) (p : pkt) : bool :=
  match s, p with
  | SRi, (PInit4 _ _ _ _ | PInit3 _ _ _ _ | PInitX | PNodeInit _ _ _ | PNodeVerify _) => true
  | SRv, PVerify _ _ => true
  | SRv2, (PNodeInit _ _ _ | PNodeVerify _) => true
  | SRu4l2, (PShort _ _ | PLong _ _ | PHello _ _ | PL1 _ | PL2 _) => true
  | SRu4l1, (PShort _ _ | PLong _ _ | PHello _ _ | PL1 _) => true
  | SRu4e, (PShort _ _ | PLong _ _ | PHello _ _) => true
  | SRu3r, (PShort _ _ | PHello _ _ | PP3 _) => true
  | SRu3e, (PShort _ _ | PHello _ _) => true
  | SRu2, (P2Hdr | P2Bare | PNop) => true
  | _, _ => false
  end.
Definition is_init (p : pkt) : bool := match p with PInit4 _ _ _ _ | PInit3 _ _ _ _ | PNodeInit _ _ _ => true | _ => false end.

(** dlsend 165-168. *)
Definition dlsend (s : ps) (x : smsg) : ps * list pout :=
  (withlinit s (Some (match x with SInit | SInit2 | SInit3 => true | _ => false end)), [PSend x]).
(** restart 139-157. *)
Definition restart (C : pcfg) (s : ps) : ps * list pout :=
  let '(s1, o1) := if running (st s) && adj s then (withadj s true false, [PDown (nid s)]) else (s, []) in
  (withst s1 SDs, o1 ++ [if c_works C then PDlRestart else PQueueUp]).
(** r_neigh 373-382. *)
Definition r_neigh (s : ps) : ps := withadj (withneigh s 0 0 None) false (tmr s).
(** up 949-962. *)
Definition p_up (s : ps) : ps * list pout :=
  (withnrec (withadj s true (match nty s with Some NPh2 => tmr s | _ => true end)) (Some 0), [PUp (nid s)]).
(** rustate 819-839. *)
Definition rustate (C : pcfg) (s : ps) : pstate :=
  if rph s =? 4 then
    match c_type C, nty s with
    | NL2, Some NL2 => SRu4l2
    | NL2, Some NL1 => SRu4l1
    | NL1, Some NL1 | NL1, Some NL2 => SRu4l1
    | _, _ => SRu4e
    end
  else match c_type C, nty s with NL1, Some NL1 | NL2, Some NL1 => SRu3r | _, _ => SRu3e end.
(** checksrc 429-439. *)
Definition checksrc (s : ps) (src : Z) : bool := src =? (if rph s =? 4 then nid s else nid s mod 1024).
Definition isrouter (C : pcfg) : bool := is_router (c_type C).
Definition password (v : option (list Z)) : list Z := match v with Some x => x | None => [] end.
(** ri, init message of a Phase IV or III neighbour, 547-667, common tail 641-667. *)
Definition init34 (C : pcfg) (s : ps) (i r : Z) (t : ntype) (verif : bool) (o : list pout) : ps * list pout :=
  let s1 := withneigh s i r (Some t) in
  let '(s2, o2) := if verif then dlsend s1 (SVerify (password (c_overif C i))) else (s1, []) in
  let s3 := withadj s2 true false in
  if c_verify C then (withst (withpw s3 (c_iverif C i)) SRv, o ++ o2)
  else let '(s4, o4) := p_up s3 in (withst s4 (rustate C s4), o ++ o2 ++ o4).
Definition ri_init4 (C : pcfg) (s : ps) (src : Z) (t : ntype) (blo verif : bool) : ps * list pout :=
  if c_phase C <? 4 then (s, [])
  else if (match t with NPh2 => true | _ => false end) || blo then restart C s
  else
    let area := src / 1024 in let tid := src mod 1024 in
    if (tid =? 0) || (isrouter C && (c_maxnodes C <? tid)) ||
       (is_l2 t && is_l2 (c_type C) && negb ((1 <=? area) && (area <=? c_maxarea C))) ||
       ((negb (is_l2 t) || negb (is_l2 (c_type C))) && negb (area =? c_area C))
    then restart C s
    else init34 C s src 4 t verif [].
Definition ri_init3 (C : pcfg) (s : ps) (src : Z) (t : ntype) (blk : Z) (verif : bool) : ps * list pout :=
  if c_phase C <? 3 then (s, [])
  else if negb (match t with NEnd | NL1 => true | _ => false end) then restart C s
  else if (src =? 0) || (isrouter C && (c_maxnodes C <? src)) then restart C s
  else if (match t with NL1 => true | _ => false end) && isrouter C && (blk <? c_maxnodes C * 2 + 6) then restart C s
  else
    let '(s1, o1) := if 3 <? c_phase C then dlsend s SInit3 else (s, []) in
    init34 C s1 (if c_phase C =? 4 then c_area C * 1024 + src mod 1024 else src mod 1024) 3 t verif o1.
(** ri, Node Init of a Phase II neighbour, 457-545. *)
Definition ri_node (C : pcfg) (s : ps) (src : Z) (name : list Z) (verif : bool) : ps * list pout :=
  if (src =? 0) || (isrouter C && (c_maxnodes C <? src)) then restart C s
  else
    let '(s1, o1) := if 2 <? c_phase C then dlsend s SInit2 else (s, []) in
    match c_name C name with
    | None => let '(s2, o2) := restart C (withneigh s1 (nid s1) 2 (Some NPh2)) in (s2, o1 ++ o2)
    | Some i =>
      let s2 := withadj (withneigh s1 i 2 (Some NPh2)) true false in
      let '(s3, o3) := if verif then dlsend s2 (SVerify2 (password (c_overif C i))) else (s2, []) in
      if c_verify C then (withst (withpw s3 (c_iverif C i)) SRv2, o1 ++ o3)
      else let '(s4, o4) := p_up s3 in (withst s4 SRu2, o1 ++ o3 ++ o4)
    end.
(** The source of a control message (CtlHdr); None for the others. *)
Definition ctl_src (p : pkt) : option Z :=
  match p with PInit4 a _ _ _ | PInit3 a _ _ _ | PVerify a _ | PHello a _ | PL1 a | PL2 a | PP3 a => Some a | _ => None end.
(** ru 841-889: a packet in one of the Phase III or IV running states.  A packet
    without src field does not get here except requeued. *)
Definition ru (C : pcfg) (s : ps) (p : pkt) : ps * list pout :=
  let s1 := withadj (withnrec s (match nrec s with Some n => Some (n + 1) | None => None end)) (adj s) (match nty s with Some NPh2 => tmr s | _ => true end) in
  match ctl_src p with
  | Some a =>
    if negb (checksrc s1 a) then restart C s1
    else match p with
         | PHello _ true => (s1, [])
         | PHello _ false => restart C s1
         | _ => (s1, [PPass p])
         end
  | None => (s1, [PPass p])
  end.
(** ru2 891-918. *)
Definition ru2 (s : ps) (p : pkt) (iok isend : bool) : ps * list pout :=
  let s1 := withnrec s (match nrec s with Some n => Some (n + 1) | None => None end) in
  match p with
  | PNop => (s1, [])
  | _ => if iok then (s1, [PPass p]) else if isend then dlsend s1 SIntercept else (s1, [])
  end.
Definition zeros7 : list Z := [0; 0; 0; 0; 0; 0; 0].
(** A packet given to the method of the current state. *)
Definition deliver (C : pcfg) (s : ps) (p : pkt) (iok isend : bool) : res (ps * list pout) :=
  match st s with
  | SHa => Ok (s, [])
  | SDs => Ok (r_neigh s, [])
  | SRi => match p with
           | PInit4 src t blo v => Ok (ri_init4 C s src t blo v)
           | PInit3 src t blk v => Ok (ri_init3 C s src t blk v)
           | PNodeInit src name v => Ok (ri_node C s src name v)
           | PNodeVerify _ => Ok (restart C s)
           | _ => Ok (s, [])
           end
  | SRv => match p with
           | PVerify src v =>
             if negb (checksrc s src) then Ok (restart C s)
             else if match pw s with Some x => leqb v x | None => false end then let '(s1, o1) := p_up s in Ok (withst s1 (rustate C s1), o1)
             else Ok (restart C s)
           | PNodeInit src _ _ => if negb (checksrc s src) then Ok (restart C s) else Err EAttr
           | _ => match ctl_src p with
                  | Some src => if negb (checksrc s src) then Ok (restart C s) else Err EAttr
                  | None => Err EAttr
                  end
           end
  | SRv2 => match pw s, p with
            | None, _ => Err EType
            | Some x, PNodeVerify v => if leqb v (upto 8 (x ++ zeros7)) then let '(s1, o1) := p_up s in Ok (withst s1 SRu2, o1) else Ok (restart C s)
            | _, _ => Err EAttr
            end
  | SRu2 => Ok (ru2 s p iok isend)
  | _ => Ok (ru C s p)
  end.
(** CircuitDown in the current state. *)
Definition circuit_down (C : pcfg) (s : ps) : ps * list pout :=
  match st s with SHa => (s, []) | SDs => restart C (r_neigh s) | _ => restart C s end.
(** down 964-969. *)
Definition p_down (s : ps) : ps * list pout :=
  if adj s then (withadj s false false, [PDown (nid s)]) else (s, []).
(** validate 218-355 and the state methods. *)
Definition pstep (C : pcfg) (s : ps) (e : pev) : res (ps * list pout) :=
  match e with
  | EIgnored => Ok (s, [])
  | EParsed p iok isend => deliver C s p iok isend
  | ERecv p1 p2 iok isend =>
    match p1 with
    | OChk => Ok (circuit_down C s)
    | _ =>
      match (match p1 with OPkt p => if takes (st s) p then Some p else None | _ => None end) with
      | Some p => deliver C s p iok isend
      | None =>
        match p2 with
        | OPkt q =>
          if negb (c_works C) && is_init q then
            (* 293-325 *)
            match linit s with
            | None => Err EAttr
            | Some true =>
              match nrec s with
              | None => Err EAttr
              | Some n => if n =? 0 then Ok (withlinit s (Some false), [])
                          else let '(s1, o1) := restart C s in Ok (s1, o1 ++ [PRequeue q])
              end
            | Some false => let '(s1, o1) := restart C s in Ok (s1, o1 ++ [PRequeue q])
            end
          else Ok (circuit_down C s)
        | _ => Ok (circuit_down C s)
        end
      end
    end
  | EDl up =>
    match st s with
    | SHa => Ok (s, [])
    | SDs => if up then let '(s1, o1) := dlsend (r_neigh s) SInit in Ok (withst s1 SRi, o1) else Ok (restart C (r_neigh s))
    | _ => if up then Ok (s, []) else Ok (restart C s)
    end
  | ETimeout =>
    match st s with
    | SHa => Ok (withst (r_neigh s) SDs, [PDlOpen])
    | SDs => Ok (r_neigh s, [])
    | SRi | SRv | SRv2 => Ok (restart C s)
    | _ => Ok (dlsend s SHello)
    end
  | EStart =>
    match st s with
    | SHa => Ok (withst (r_neigh s) SDs, [PDlOpen])
    | SDs => Ok (r_neigh s, [])
    | _ => Ok (s, [])
    end
  | EStop =>
    match st s with
    | SHa => Ok (s, [])
    | SDs => Ok (withst (r_neigh s) SHa, [PDlClose])
    | SRi | SRv | SRv2 => Ok (withst s SHa, [PDlClose])
    | _ => let '(s1, o1) := p_down s in Ok (withst s1 SHa, o1 ++ [PDlClose])
    end
  | EAdjTimeout =>
    (* adjacency.py:84-90, then adj_timeout 971-982 *)
    if tmr s then
      let s1 := withadj s false false in
      let '(s2, o2) := restart C s1 in Ok (s2, PDown (nid s) :: o2)
    else Ok (s, [])
  end.
Fixpoint psteps (C : pcfg) (s : ps) (l : list pev) : res (ps * list pout) :=
  match l with
  | [] => Ok (s, [])
  | e :: t => let* (s1, o1) := pstep C s e in let* (s2, o2) := psteps C s1 t in Ok (s2, o1 ++ o2)
  end.
