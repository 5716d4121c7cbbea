(** NSP connections: /repo/pydecnet/decnet/nsp.py.  This file models a
    connection object with its two subchannels (txqentry 540-619, Subchannel
    621-771, Data_Subchannel 773-897, Other_Subchannel 899-955, Connection
    957-1526); NspNodeModel.v adds NSP.dispatch and the tables.

    A method that changes the connection is a function conn -> res conn.  The
    field [clog] collects the effects in order: messages given to Routing
    (sendmsg 1365-1371), items given to Session Control (to_sc 1282-1333), data
    passed to process_data, and exceptions raised to the caller of an API
    method, messages taken by send_data.  [Err] is an exception that nothing in NSP catches.

    Not modelled: counters, the time values (the round trip estimate, the
    length of timeouts; whether a timer is running is modelled), logging, and
    destinations that are loop nodes. *)
From Verif Require Import Base Dict ModuloModel NspPktModel.

(** Configuration: node.phase, config.qmax, config.retransmits, the version
    code sent (nsp.py:125-129). *)
Record ncfg := mk_ncfg { phase : Z; qmax : Z; retransmits : Z; nspver : Z }.

Inductive chan := CD | CO.
Definition cross (ch : chan) : chan := match ch with CD => CO | CO => CD end.
(** The states (methods) of Connection; closed: 1110. *)
Inductive cstate := Sci | Scd | Scr | Scc | Srun | Sdi | Sclosed.
Definition cstate_eqb (a b : cstate) : bool :=
  match a, b with
  | Sci, Sci | Scd, Scd | Scr, Scr | Scc, Scc | Srun, Srun | Sdi, Sdi | Sclosed, Sclosed => true
  | _, _ => false
  end.
(** Exceptions of the API, nsp.py:22-29. *)
Inductive nexc := WrongState | RangeError | ConnectionLimit | CantSend | IntLength | UnknownNode.

(** What Session Control receives: a message (DataSeg, only its payload
    matters), another packet, or the RunState notice; 1282-1333. *)
Inductive scitem := SData (payload : list Z) | SPkt (p : npkt) | SRun.
(** Ghost annotation of a transmission, not in the code and never read by the
    model: the segment and message number of the queue entry (txqentry 551-559;
    0 for messages that are not queued), and the number of packets received in
    sequence on the data and the other subchannel when the acknowledgements in
    the packet were filled in. *)
Record tag := mk_tag { g_seg : Z; g_msg : Z; g_d : option Z; g_o : option Z }.
Inductive out :=
  | OTx (p : npkt) (g : tag)
  | OSc (i : scitem) (reject : bool)
  | ODeliver (ch : chan) (p : npkt)      (* call of process_data, 682 *)
  | OAccepted (size : Z) (data : list Z) (* send_data takes the message, to be cut in segments of this size *)
  | ORaise (e : nexc).

(** txqentry 540-562; [ttimer]: its timer is running, [tgd], [tgo]: ghost. *)
Record txe := mk_txe { tp : npkt; tseg : Z; tmsg : Z; ttries : Z; tsent : bool; ttimer : bool; tgd : option Z; tgo : option Z }.
Definition set_tp (r : txe) v : txe := mk_txe v (tseg r) (tmsg r) (ttries r) (tsent r) (ttimer r) (tgd r) (tgo r).
Definition set_tseg (r : txe) v : txe := mk_txe (tp r) v (tmsg r) (ttries r) (tsent r) (ttimer r) (tgd r) (tgo r).
Definition set_tmsg (r : txe) v : txe := mk_txe (tp r) (tseg r) v (ttries r) (tsent r) (ttimer r) (tgd r) (tgo r).
Definition set_ttries (r : txe) v : txe := mk_txe (tp r) (tseg r) (tmsg r) v (tsent r) (ttimer r) (tgd r) (tgo r).
Definition set_tsent (r : txe) v : txe := mk_txe (tp r) (tseg r) (tmsg r) (ttries r) v (ttimer r) (tgd r) (tgo r).
Definition set_ttimer (r : txe) v : txe := mk_txe (tp r) (tseg r) (tmsg r) (ttries r) (tsent r) v (tgd r) (tgo r).
Definition set_tgd (r : txe) v : txe := mk_txe (tp r) (tseg r) (tmsg r) (ttries r) (tsent r) (ttimer r) v (tgo r).
Definition set_tgo (r : txe) v : txe := mk_txe (tp r) (tseg r) (tmsg r) (ttries r) (tsent r) (ttimer r) (tgd r) v.

(** Subchannel.__init__ 631-651, Other_Subchannel.__init__ 904-910; [hold]: the
    ack holdoff timer is running; [rcvd]: ghost, the number of packets received
    in sequence. *)
Record sub := mk_sub { pending : list txe; nextseg : Z; nextmsg : Z; maxseg : Z; maxmsg : Z; maxseqsent : Z; maxackseg : Z;
  acknum : Z; ackpending : bool; xon : bool; flow : Z; ooo : dict Z npkt; hold : bool; seqnum : Z; rcvd : Z }.
Definition set_pending (r : sub) v : sub := mk_sub v (nextseg r) (nextmsg r) (maxseg r) (maxmsg r) (maxseqsent r) (maxackseg r) (acknum r) (ackpending r) (xon r) (flow r) (ooo r) (hold r) (seqnum r) (rcvd r).
Definition set_nextseg (r : sub) v : sub := mk_sub (pending r) v (nextmsg r) (maxseg r) (maxmsg r) (maxseqsent r) (maxackseg r) (acknum r) (ackpending r) (xon r) (flow r) (ooo r) (hold r) (seqnum r) (rcvd r).
Definition set_nextmsg (r : sub) v : sub := mk_sub (pending r) (nextseg r) v (maxseg r) (maxmsg r) (maxseqsent r) (maxackseg r) (acknum r) (ackpending r) (xon r) (flow r) (ooo r) (hold r) (seqnum r) (rcvd r).
Definition set_maxseg (r : sub) v : sub := mk_sub (pending r) (nextseg r) (nextmsg r) v (maxmsg r) (maxseqsent r) (maxackseg r) (acknum r) (ackpending r) (xon r) (flow r) (ooo r) (hold r) (seqnum r) (rcvd r).
Definition set_maxmsg (r : sub) v : sub := mk_sub (pending r) (nextseg r) (nextmsg r) (maxseg r) v (maxseqsent r) (maxackseg r) (acknum r) (ackpending r) (xon r) (flow r) (ooo r) (hold r) (seqnum r) (rcvd r).
Definition set_maxseqsent (r : sub) v : sub := mk_sub (pending r) (nextseg r) (nextmsg r) (maxseg r) (maxmsg r) v (maxackseg r) (acknum r) (ackpending r) (xon r) (flow r) (ooo r) (hold r) (seqnum r) (rcvd r).
Definition set_maxackseg (r : sub) v : sub := mk_sub (pending r) (nextseg r) (nextmsg r) (maxseg r) (maxmsg r) (maxseqsent r) v (acknum r) (ackpending r) (xon r) (flow r) (ooo r) (hold r) (seqnum r) (rcvd r).
Definition set_acknum (r : sub) v : sub := mk_sub (pending r) (nextseg r) (nextmsg r) (maxseg r) (maxmsg r) (maxseqsent r) (maxackseg r) v (ackpending r) (xon r) (flow r) (ooo r) (hold r) (seqnum r) (rcvd r).
Definition set_ackpending (r : sub) v : sub := mk_sub (pending r) (nextseg r) (nextmsg r) (maxseg r) (maxmsg r) (maxseqsent r) (maxackseg r) (acknum r) v (xon r) (flow r) (ooo r) (hold r) (seqnum r) (rcvd r).
Definition set_xon (r : sub) v : sub := mk_sub (pending r) (nextseg r) (nextmsg r) (maxseg r) (maxmsg r) (maxseqsent r) (maxackseg r) (acknum r) (ackpending r) v (flow r) (ooo r) (hold r) (seqnum r) (rcvd r).
Definition set_flow (r : sub) v : sub := mk_sub (pending r) (nextseg r) (nextmsg r) (maxseg r) (maxmsg r) (maxseqsent r) (maxackseg r) (acknum r) (ackpending r) (xon r) v (ooo r) (hold r) (seqnum r) (rcvd r).
Definition set_ooo (r : sub) v : sub := mk_sub (pending r) (nextseg r) (nextmsg r) (maxseg r) (maxmsg r) (maxseqsent r) (maxackseg r) (acknum r) (ackpending r) (xon r) (flow r) v (hold r) (seqnum r) (rcvd r).
Definition set_hold (r : sub) v : sub := mk_sub (pending r) (nextseg r) (nextmsg r) (maxseg r) (maxmsg r) (maxseqsent r) (maxackseg r) (acknum r) (ackpending r) (xon r) (flow r) (ooo r) v (seqnum r) (rcvd r).
Definition set_seqnum (r : sub) v : sub := mk_sub (pending r) (nextseg r) (nextmsg r) (maxseg r) (maxmsg r) (maxseqsent r) (maxackseg r) (acknum r) (ackpending r) (xon r) (flow r) (ooo r) (hold r) v (rcvd r).
Definition set_rcvd (r : sub) v : sub := mk_sub (pending r) (nextseg r) (nextmsg r) (maxseg r) (maxmsg r) (maxseqsent r) (maxackseg r) (acknum r) (ackpending r) (xon r) (flow r) (ooo r) (hold r) (seqnum r) v.
Definition new_data : sub := mk_sub [] 1 1 0 0 0 0 0 false true 0 [] false 0 0.
Definition new_other : sub := mk_sub [] 1 1 0 1 0 0 0 false true 2 [] false 1 0.

(** Connection; [ctimer]: its timer is running. *)
Record conn := mk_conn { cst : cstate; csrc : Z; cdst : Z; cdest : Z; cshut : bool; cdisc : Z * list Z; casm : list (list Z);
  cphase : Z; csegsize : Z; crsts : bool; ctimer : bool; cdata : sub; coth : sub; clog : list out }.
Definition set_cst (r : conn) v : conn := mk_conn v (csrc r) (cdst r) (cdest r) (cshut r) (cdisc r) (casm r) (cphase r) (csegsize r) (crsts r) (ctimer r) (cdata r) (coth r) (clog r).
Definition set_csrc (r : conn) v : conn := mk_conn (cst r) v (cdst r) (cdest r) (cshut r) (cdisc r) (casm r) (cphase r) (csegsize r) (crsts r) (ctimer r) (cdata r) (coth r) (clog r).
Definition set_cdst (r : conn) v : conn := mk_conn (cst r) (csrc r) v (cdest r) (cshut r) (cdisc r) (casm r) (cphase r) (csegsize r) (crsts r) (ctimer r) (cdata r) (coth r) (clog r).
Definition set_cdest (r : conn) v : conn := mk_conn (cst r) (csrc r) (cdst r) v (cshut r) (cdisc r) (casm r) (cphase r) (csegsize r) (crsts r) (ctimer r) (cdata r) (coth r) (clog r).
Definition set_cshut (r : conn) v : conn := mk_conn (cst r) (csrc r) (cdst r) (cdest r) v (cdisc r) (casm r) (cphase r) (csegsize r) (crsts r) (ctimer r) (cdata r) (coth r) (clog r).
Definition set_cdisc (r : conn) v : conn := mk_conn (cst r) (csrc r) (cdst r) (cdest r) (cshut r) v (casm r) (cphase r) (csegsize r) (crsts r) (ctimer r) (cdata r) (coth r) (clog r).
Definition set_casm (r : conn) v : conn := mk_conn (cst r) (csrc r) (cdst r) (cdest r) (cshut r) (cdisc r) v (cphase r) (csegsize r) (crsts r) (ctimer r) (cdata r) (coth r) (clog r).
Definition set_cphase (r : conn) v : conn := mk_conn (cst r) (csrc r) (cdst r) (cdest r) (cshut r) (cdisc r) (casm r) v (csegsize r) (crsts r) (ctimer r) (cdata r) (coth r) (clog r).
Definition set_csegsize (r : conn) v : conn := mk_conn (cst r) (csrc r) (cdst r) (cdest r) (cshut r) (cdisc r) (casm r) (cphase r) v (crsts r) (ctimer r) (cdata r) (coth r) (clog r).
Definition set_crsts (r : conn) v : conn := mk_conn (cst r) (csrc r) (cdst r) (cdest r) (cshut r) (cdisc r) (casm r) (cphase r) (csegsize r) v (ctimer r) (cdata r) (coth r) (clog r).
Definition set_ctimer (r : conn) v : conn := mk_conn (cst r) (csrc r) (cdst r) (cdest r) (cshut r) (cdisc r) (casm r) (cphase r) (csegsize r) (crsts r) v (cdata r) (coth r) (clog r).
Definition set_cdata (r : conn) v : conn := mk_conn (cst r) (csrc r) (cdst r) (cdest r) (cshut r) (cdisc r) (casm r) (cphase r) (csegsize r) (crsts r) (ctimer r) v (coth r) (clog r).
Definition set_coth (r : conn) v : conn := mk_conn (cst r) (csrc r) (cdst r) (cdest r) (cshut r) (cdisc r) (casm r) (cphase r) (csegsize r) (crsts r) (ctimer r) (cdata r) v (clog r).
Definition set_clog (r : conn) v : conn := mk_conn (cst r) (csrc r) (cdst r) (cdest r) (cshut r) (cdisc r) (casm r) (cphase r) (csegsize r) (crsts r) (ctimer r) (cdata r) (coth r) v.

Definition getc (c : conn) (ch : chan) : sub := match ch with CD => cdata c | CO => coth c end.
Definition putc (c : conn) (ch : chan) (s : sub) : conn := match ch with CD => set_cdata c s | CO => set_coth c s end.
Definition emit (c : conn) (o : out) : conn := set_clog c (clog c ++ [o]).

Fixpoint upd {A} (i : nat) (x : A) (l : list A) : list A :=
  match l, i with [], _ => [] | _ :: t, O => x :: t | y :: t, S j => y :: upd j x t end.

(** * Packets *)
Definition is_data (p : npkt) : bool := match p with NData _ _ _ _ _ _ _ _ _ => true | _ => false end.
Definition is_int (p : npkt) : bool := match p with NInt _ _ _ _ _ _ => true | _ => false end.
Definition is_ls (p : npkt) : bool := match p with NLs _ _ _ _ _ _ _ _ => true | _ => false end.
Definition is_ci (p : npkt) : bool := match p with NCI _ _ _ _ _ _ => true | _ => false end.
Definition is_cc (p : npkt) : bool := match p with NCC _ _ _ _ _ _ => true | _ => false end.
Definition is_di (p : npkt) : bool := match p with NDI _ _ _ _ => true | _ => false end.
Definition is_dc (p : npkt) : bool := match p with NDC _ _ _ => true | _ => false end.
(** The subclasses of AckHdr. *)
Definition is_ackhdr (p : npkt) : bool :=
  match p with NData _ _ _ _ _ _ _ _ _ | NInt _ _ _ _ _ _ | NLs _ _ _ _ _ _ _ _ | NAckData _ _ _ _ | NAckOther _ _ _ _ => true | _ => false end.
Definition segnum (p : npkt) : Z :=
  match p with NData _ _ _ _ s _ _ _ _ | NInt _ _ _ _ s _ | NLs _ _ _ _ s _ _ _ => s | _ => 0 end.
Definition ack1 (p : npkt) : ack :=
  match p with NData _ _ a _ _ _ _ _ _ | NInt _ _ a _ _ _ | NLs _ _ a _ _ _ _ _ | NAckData _ _ a _ | NAckOther _ _ a _ => a | _ => None end.
Definition ack2 (p : npkt) : ack :=
  match p with NData _ _ _ a _ _ _ _ _ | NInt _ _ _ a _ _ | NLs _ _ _ a _ _ _ _ | NAckData _ _ _ a | NAckOther _ _ _ a => a | _ => None end.
Definition set_ack1 (p : npkt) (a : ack) : npkt :=
  match p with
  | NData d s _ b n y bo eo pl => NData d s a b n y bo eo pl
  | NInt d s _ b n pl => NInt d s a b n pl
  | NLs d s _ b n m i v => NLs d s a b n m i v
  | NAckData d s _ b => NAckData d s a b
  | NAckOther d s _ b => NAckOther d s a b
  | _ => p
  end.
Definition set_ack2 (p : npkt) (b : ack) : npkt :=
  match p with
  | NData d s a _ n y bo eo pl => NData d s a b n y bo eo pl
  | NInt d s a _ n pl => NInt d s a b n pl
  | NLs d s a _ n m i v => NLs d s a b n m i v
  | NAckData d s a _ => NAckData d s a b
  | NAckOther d s a _ => NAckOther d s a b
  | _ => p
  end.
(** The dly attribute: a field of DataSeg, otherwise the class constant 0. *)
Definition dly (p : npkt) : bool := match p with NData _ _ _ _ _ y _ _ _ => negb (y =? 0) | _ => false end.
(** Link address of the sender (Connect Ack has none). *)
Definition srcaddr (p : npkt) : Z :=
  match p with
  | NData _ s _ _ _ _ _ _ _ | NInt _ s _ _ _ _ | NLs _ s _ _ _ _ _ _ | NAckData _ s _ _ | NAckOther _ s _ _ | NCI _ s _ _ _ _
  | NCC _ s _ _ _ _ | NDI _ s _ _ | NDC _ s _ => s
  | _ => 0
  end.
Definition dstaddr (p : npkt) : Z :=
  match p with
  | NData d _ _ _ _ _ _ _ _ | NInt d _ _ _ _ _ | NLs d _ _ _ _ _ _ _ | NAckData d _ _ _ | NAckOther d _ _ _
  | NCC d _ _ _ _ _ | NDI d _ _ _ | NDC d _ _ | NAckConn d => d
  | _ => 0
  end.

(** * Transmission *)
(** sendmsg 1365-1371: len (pkt) encodes the packet. *)
Definition sendmsg (c : conn) (p : npkt) (g : tag) : res conn := let* _ := encode p in Ok (emit c (OTx p g)).

(** Subchannel.set_acks 718-729. *)
Definition set_acks (c : conn) (ch : chan) (explicit : bool) (p : npkt) (g : option Z * option Z) : conn * npkt * (option Z * option Z) :=
  let s := getc c ch in
  let '(c1, p1, g1) :=
    if explicit || ackpending s then
      (putc c ch (set_hold (set_ackpending s false) false), set_ack1 p (Some (acknum s, 0)),
       match ch with CD => (Some (rcvd s), snd g) | CO => (fst g, Some (rcvd s)) end)
    else (c, p, g) in
  if cphase c =? 4 then
    let o := getc c1 (cross ch) in
    if ackpending o then
      (putc c1 (cross ch) (set_hold (set_ackpending o false) false), set_ack2 p1 (Some (acknum o, 2)),
       match ch with CD => (fst g1, Some (rcvd o)) | CO => (Some (rcvd o), snd g1) end)
    else (c1, p1, g1)
  else (c1, p1, g1).

(** Subchannel.send_ack 712-716. *)
Definition send_ack (c : conn) (ch : chan) : res conn :=
  let c := putc c ch (set_hold (getc c ch) false) in
  let p := match ch with CD => NAckData (cdst c) (csrc c) None None | CO => NAckOther (cdst c) (csrc c) None None end in
  let '(c1, p1, g) := set_acks c ch true p (None, None) in
  sendmsg c1 p1 (mk_tag 0 0 (fst g) (snd g)).

(** txqentry.send 564-585, for entry [i] of the queue of subchannel [ch]. *)
Definition fill_packet (c : conn) (ch : chan) (e : txe) : conn * npkt * (option Z * option Z) :=
  match tp e with
  | NCI _ s f inf z pl => (c, NCI (0 <? ttries e) s f inf z pl, (tgd e, tgo e))
  | p => if is_ackhdr p then set_acks c ch false p (tgd e, tgo e) else (c, p, (tgd e, tgo e))
  end.
Definition tx_send (c : conn) (ch : chan) (i : nat) : res conn :=
  match nth_error (pending (getc c ch)) i with
  | None => Err EIndex (* not reached: send is called for entries of the queue *)
  | Some e =>
      let '(c1, p1, g) := fill_packet c ch e in
      let e1 := mk_txe p1 (tseg e) (tmsg e) (ttries e + 1) true true (fst g) (snd g) in
      let c2 := putc c1 ch (set_pending (getc c1 ch) (upd i e1 (pending (getc c1 ch)))) in
      sendmsg c2 p1 (mk_tag (tseg e) (tmsg e) (fst g) (snd g))
  end.

(** max (self.maxseqsent, segnum): the second if it is greater. *)
Definition seqmax (a b : Z) : res Z := let* g := mod_gt 4096 b a in Ok (if g then b else a).
Definition bump (c : conn) (ch : chan) (n : Z) : res conn :=
  let* m := seqmax (maxseqsent (getc c ch)) n in Ok (putc c ch (set_maxseqsent (getc c ch) m)).

(** Data_Subchannel.flow_ok 798-822. *)
Definition flow_ok (cfg : ncfg) (s : sub) (e : txe) : bool :=
  let maxq := match pending s with q :: _ => tseg q + qmax cfg - 1 | [] => qmax cfg - 1 end in
  (tseg e <=? maxq) && xon s &&
  ((flow s =? 0) || ((flow s =? 1) && (tseg e <=? maxseg s)) || ((flow s =? 2) && (tmsg e <=? maxmsg s))).

(** Data_Subchannel.send_qe 853-868: whether it was sent. *)
Definition send_qe (cfg : ncfg) (c : conn) (i : nat) : res (conn * bool) :=
  match nth_error (pending (cdata c)) i with
  | None => Err EIndex
  | Some e => if is_data (tp e) && negb (flow_ok cfg (cdata c) e) then Ok (c, false) else let* c1 := tx_send c CD i in Ok (c1, true)
  end.

(** Data_Subchannel.send_blocked 887-897, from entry [i] with [n] entries to go. *)
Fixpoint blocked_loop (cfg : ncfg) (n : nat) (i : nat) (c : conn) : res conn :=
  match n with
  | O => Ok c
  | S m =>
      match nth_error (pending (cdata c)) i with
      | None => Ok c
      | Some e =>
          let* (c1, go) := (if tsent e then Ok (c, true) else send_qe cfg c i) in
          if go then
            let* c2 := (if is_data (tp e) then bump c1 CD (segnum (tp e)) else Ok c1) in
            blocked_loop cfg m (S i) c2
          else Ok c1
      end
  end.
Definition send_blocked (cfg : ncfg) (c : conn) : res conn := blocked_loop cfg (length (pending (cdata c))) 0 c.

(** Data_Subchannel.send 824-851.  The packet is given without its segment
    number and delay flag.  The new entry and the counters: *)
Definition make_entry (cfg : ncfg) (c : conn) (p : npkt) : txe * sub :=
  let s := cdata c in
  match p with
  | NData d r a1 a2 _ _ bo eo pl =>
      let y := if 4 <=? cphase c then if zlen (pending s) <=? qmax cfg / 2 then 1 else 0 else 0 in
      (mk_txe (NData d r a1 a2 (nextseg s mod 4096) y bo eo pl) (nextseg s) (nextmsg s) 0 false false None None,
       set_nextmsg (set_nextseg s (nextseg s + 1)) (if eo =? 0 then nextmsg s else nextmsg s + 1))
  | _ => (mk_txe p 0 0 0 false false None None, s)
  end.
Definition data_send (cfg : ncfg) (c : conn) (p : npkt) : res conn :=
  let '(e, s1) := make_entry cfg c p in
  let i := length (pending (cdata c)) in
  let c1 := set_cdata c (set_pending s1 (pending (cdata c) ++ [e])) in
  let* (c2, sent) := send_qe cfg c1 i in
  if sent && is_data (tp e) then bump c2 CD (segnum (tp e)) else Ok c2.

(** Other_Subchannel.send 938-955; CantSend is raised to the caller. *)
Definition other_send (c : conn) (p : npkt) : res (conn * bool) :=
  let s := coth c in
  if negb (is_ls p) && (maxmsg s <? nextmsg s) then Ok (emit c (ORaise CantSend), false)
  else
    let e := mk_txe p 0 (nextmsg s) 0 false false None None in
    let i := length (pending s) in
    let c1 := set_coth c (set_pending (set_nextmsg s (nextmsg s + 1)) (pending s ++ [e])) in
    let* c2 := tx_send c1 CO i in
    let* c3 := bump c2 CO (segnum p) in Ok (c3, true).

(** * Acknowledgements *)
(** The pops of Subchannel.ack 757-760; popleft of an empty queue: IndexError. *)
Fixpoint pop_acked (n : nat) (s : sub) : res sub :=
  match n with
  | O => Ok s
  | S m => match pending s with [] => Err EIndex | e :: t => pop_acked m (set_maxackseg (set_pending s t) (tseg e)) end
  end.
(** Subchannel.ack 738-760. *)
Definition sub_ack (s : sub) (num : Z) : res sub :=
  match pending s with
  | [] => Ok s
  | e :: _ =>
      if is_int (tp e) || is_data (tp e) then
        let* lo := mod_lt 4096 num (segnum (tp e)) in
        if lo then Ok s
        else
          let* hi := mod_gt 4096 num (maxseqsent s) in
          if hi then Ok s
          else
            let* d := mod_sub 4096 num (segnum (tp e)) in
            let* n := mod_add 4096 d 1 in
            pop_acked (Z.to_nat n) s
      else pop_acked 1 s
  end.
Definition chan_ack (c : conn) (ch : chan) (num : Z) : res conn := let* s := sub_ack (getc c ch) num in Ok (putc c ch s).
(** Subchannel.process_ack 731-736 (NAK counts as ACK). *)
Definition base_process_ack (c : conn) (ch : chan) (a : ack) : res conn :=
  match a with
  | None => Ok c
  | Some (n, q) => chan_ack c (if is_cross q then cross ch else ch) n
  end.

(** Subchannel.close 762-771: the queue, the out of order cache and the timers. *)
Definition sub_close (s : sub) : sub := set_ooo (set_pending (set_hold s false) []) [].

Definition reserved_reason (r : Z) : bool := (r =? 1) || (r =? 42) || (r =? 41).
(** disc_rej 1189-1204; [Err ERange] stands for RangeError. *)
Definition disc_rej (cfg : ncfg) (c : conn) (reason : Z) (payload : list Z) : res conn :=
  if (reason <? 0) || (255 <? reason) || reserved_reason reason then Err ERange
  else
    let c1 := set_ctimer c false in
    let c2 := set_coth (set_cdata c1 (sub_close (cdata c1))) (sub_close (coth c1)) in
    data_send cfg c2 (NDI (cdst c2) (csrc c2) reason payload).

(** Data_Subchannel.process_ack 788-796. *)
Definition data_process_ack (cfg : ncfg) (c : conn) (a : ack) : res conn :=
  let* c1 := base_process_ack c CD a in
  let* c2 := send_blocked cfg c1 in
  match cshut c2, pending (cdata c2) with
  | true, [] => let* c3 := disc_rej cfg c2 (fst (cdisc c2)) (snd (cdisc c2)) in Ok (set_cst c3 Sdi)
  | _, _ => Ok c2
  end.
Definition process_ack (cfg : ncfg) (c : conn) (ch : chan) (a : ack) : res conn :=
  match ch with CD => data_process_ack cfg c a | CO => base_process_ack c CO a end.

(** * Reception *)
(** to_sc 1282-1333; data segments are reassembled. *)
Definition to_sc (c : conn) (p : npkt) (reject : bool) : conn :=
  match p with
  | NData _ _ _ _ _ _ bom eom pl =>
      match casm c with
      | _ :: _ =>
          let asm := casm c ++ [pl] in
          if eom =? 0 then set_casm c asm
          else emit (set_casm c []) (OSc (SData (concat asm)) reject)
      | [] =>
          let eom := if (bom =? 0) && crsts c then 1 else eom in
          if eom =? 0 then set_casm c [pl] else emit c (OSc (SData pl) reject)
      end
  | _ => emit c (OSc (SPkt p) reject)
  end.

(** Data_Subchannel.process_ls 870-892. *)
Definition data_ls (cfg : ncfg) (c : conn) (fcmod fcval : Z) : res conn :=
  let s := cdata c in
  let s1 :=
    if flow s =? 2 then
      if (0 <=? fcval) && (maxmsg s + fcval <? maxackseg s + 128) then Some (set_maxmsg s (maxmsg s + fcval)) else None
    else if flow s =? 1 then
      if (maxackseg s <=? maxseg s + fcval) && (maxseg s + fcval <? maxackseg s + 128) then Some (set_maxseg s (maxseg s + fcval)) else None
    else Some s in
  match s1 with
  | None => Ok c
  | Some s1 =>
      let s2 := if fcmod =? 0 then s1 else set_xon s1 (fcmod =? 2) in
      send_blocked cfg (set_cdata c s2)
  end.
(** Other_Subchannel.process_ls 925-936. *)
Definition other_ls (c : conn) (fcval : Z) : conn :=
  if 0 <=? fcval then set_coth c (set_maxmsg (coth c) (maxmsg (coth c) + fcval)) else c.

(** process_data of the two subchannels, 783-786 and 912-923. *)
Definition process_data (cfg : ncfg) (c : conn) (ch : chan) (p : npkt) : res conn :=
  let c := emit c (ODeliver ch p) in
  match ch with
  | CD => Ok (to_sc c p false)
  | CO =>
      match p with
      | NLs _ _ _ _ _ m i v => if i =? 0 then data_ls cfg c m v else Ok (other_ls c v)
      | _ => Ok (to_sc c p false)
      end
  end.

(** The loop of Subchannel.dispatch 676-689; [fuel] bounds the number of
    packets in the out of order cache plus one. *)
Fixpoint accept_loop (cfg : ncfg) (fuel : nat) (c : conn) (ch : chan) (num : Z) (p : npkt) : res conn :=
  match fuel with
  | O => Err EDiverge
  | S f =>
      let s := getc c ch in
      let c1 := putc c ch (set_rcvd (set_ackpending (set_acknum s num) true) (rcvd s + 1)) in
      let* c2 := process_data cfg c1 ch p in
      let* num := mod_add 4096 num 1 in
      let s2 := getc c2 ch in
      match dget Z.eqb (ooo s2) num with
      | None => Ok c2
      | Some q => accept_loop cfg f (putc c2 ch (set_ooo s2 (ddel Z.eqb (ooo s2) num))) ch num q
      end
  end.

(** Subchannel.dispatch 653-710, a received packet. *)
Definition sub_recv (cfg : ncfg) (c : conn) (ch : chan) (p : npkt) : res conn :=
  let* c := process_ack cfg c ch (ack1 p) in
  let* c := process_ack cfg c ch (ack2 p) in
  match p with
  | NAckData _ _ _ _ | NAckOther _ _ _ _ => Ok c
  | _ =>
      let s := getc c ch in
      let num := segnum p in
      let* le := mod_le 4096 num (acknum s) in
      if le then send_ack c ch
      else
        let* nxt := mod_add 4096 (acknum s) 1 in
        if negb (num =? nxt) then Ok (putc c ch (set_ooo s (dset Z.eqb (ooo s) num p)))
        else
          let* c := accept_loop cfg (S (length (ooo s))) c ch num p in
          if dly p && (cphase c =? 4) && negb (cshut c) then
            if ackpending (getc c ch) && negb (hold (getc c ch)) then Ok (putc c ch (set_hold (getc c ch) true)) else Ok c
          else if ackpending (getc c ch) then send_ack c ch
          else Ok c
  end.

(** Connection.close 1122-1145, the part inside the connection: its timers and
    its subchannels. *)
Definition conn_close (c : conn) : conn :=
  let c := set_ctimer c false in
  set_cst (set_coth (set_cdata c (sub_close (cdata c))) (sub_close (coth c))) Sclosed.

(** setphase 1096-1106: nspphase. *)
Definition nspphase (info : Z) : Z := let v := Z.land info 3 in if v =? 1 then 2 else if v =? 0 then 3 else 4.
Definition setphase (cfg : ncfg) (c : conn) (info : Z) : conn := set_cphase c (Z.min (nspphase info) (phase cfg)).
Definition MSS : Z := 563.

Definition OBJ_FAIL : Z := 38.
Definition UNREACH : Z := 39.
Definition no_tag : tag := mk_tag 0 0 None None.

(** The constructor, outbound (1066-1094), for link address [src]. *)
Definition conn_outbound (cfg : ncfg) (src dest : Z) (payload : list Z) : res conn :=
  let c := mk_conn Sci src 0 dest false (0, []) [] 0 0 false false new_data new_other [] in
  let* c := data_send cfg c (NCI false src 0 (nspver cfg) MSS payload) in
  Ok (set_ctimer c true).
(** The constructor, inbound (1033-1065), for a Connect Initiate packet. *)
Definition conn_inbound (cfg : ncfg) (src dest : Z) (p : npkt) : res conn :=
  match p with
  | NCI _ r fcopt info segsize _ =>
      let c := mk_conn Scr src r dest false (0, []) [] 0 (Z.min segsize MSS) false false (set_flow new_data fcopt) new_other [] in
      let c := setphase cfg c info in
      let* c := (if 2 <? cphase c then sendmsg c (NAckConn (cdst c)) no_tag else Ok c) in
      Ok (set_ctimer (to_sc c p false) true)
  | _ => Err EAttr
  end.

(** ** The state functions, for received packets *)
(** run 1478-1513. *)
Definition run_recv (cfg : ncfg) (c : conn) (p : npkt) : res conn :=
  let c := if 2 <? cphase c then set_ctimer c true else c in
  match p with
  | NData _ _ _ _ _ _ _ _ _ | NAckData _ _ _ _ => sub_recv cfg c CD p
  | NInt _ _ _ _ _ _ | NLs _ _ _ _ _ _ _ _ | NAckOther _ _ _ _ => sub_recv cfg c CO p
  | NDI _ _ _ _ => let* c := sendmsg (to_sc c p false) (NDC (cdst c) (csrc c) 42) no_tag in Ok (conn_close c)
  | NDC _ _ _ => Ok (conn_close (to_sc c p false))
  | NCC _ _ _ _ _ _ => if 2 <? cphase c then send_ack c CD else Ok c
  | _ => Ok c
  end.
(** cc 1457-1476. *)
Definition cc_recv (cfg : ncfg) (c : conn) (p : npkt) : res conn :=
  let* c := (if is_ackhdr p then chan_ack c CD 0 else Ok c) in
  run_recv cfg (emit (set_cst c Srun) (OSc SRun false)) p.
(** cd 1422-1455. *)
Definition cd_recv (cfg : ncfg) (c : conn) (p : npkt) : res conn :=
  match p with
  | NCC _ s fcopt info segsize _ =>
      let c := setphase cfg (set_cdst c s) info in
      let c := set_csegsize (set_cdata c (set_flow (cdata c) fcopt)) (Z.min segsize MSS) in
      let* c := chan_ack c CD 0 in
      let* c := (if 2 <? cphase c then let* c := send_ack c CD in Ok (set_ctimer c true) else Ok c) in
      Ok (set_cst (to_sc c p false) Srun)
  | NDI _ s _ _ =>
      let c := to_sc (set_cdst c s) p true in
      let* c := sendmsg c (NDC (cdst c) (csrc c) 42) no_tag in Ok (conn_close c)
  | NDC _ _ _ => Ok (conn_close (to_sc c p true))
  | _ => Ok c
  end.
(** ci 1398-1420. *)
Definition ci_recv (cfg : ncfg) (c : conn) (p : npkt) : res conn :=
  match p with
  | NAckConn _ => if 2 <? phase cfg then let* c := chan_ack c CD 0 in Ok (set_cst c Scd) else cd_recv cfg c p
  | NCI _ _ _ _ _ _ => Ok (conn_close (to_sc c (NDI 0 0 UNREACH []) true))
  | _ => cd_recv cfg c p
  end.
(** cr 1379-1396. *)
Definition cr_recv (cfg : ncfg) (c : conn) (p : npkt) : res conn :=
  match p with
  | NCI _ _ _ _ _ _ => if 2 <? cphase c then sendmsg c (NAckConn (cdst c)) no_tag else Ok c
  | _ => Ok c
  end.
(** di 1515-1524. *)
Definition di_recv (cfg : ncfg) (c : conn) (p : npkt) : res conn :=
  match p with
  | NDI _ _ _ _ => let* c := sendmsg c (NDC (cdst c) (csrc c) 42) no_tag in Ok (conn_close c)
  | NDC _ _ _ => Ok (conn_close c)
  | _ => Ok c
  end.
(** StateMachine.dispatch for a received packet; closed 1110: InternalError. *)
Definition conn_recv (cfg : ncfg) (c : conn) (p : npkt) : res conn :=
  match cst c with
  | Sci => ci_recv cfg c p
  | Scd => cd_recv cfg c p
  | Scr => cr_recv cfg c p
  | Scc => cc_recv cfg c p
  | Srun => run_recv cfg c p
  | Sdi => di_recv cfg c p
  | Sclosed => Err EAssert
  end.

(** ** The API *)
(** accept 1154-1177. *)
Definition conn_accept (cfg : ncfg) (c : conn) (payload : list Z) : res conn :=
  if negb (cstate_eqb (cst c) Scr) then Ok (emit c (ORaise WrongState))
  else
    let p := NCC (cdst c) (csrc c) 0 (nspver cfg) MSS payload in
    if cphase c =? 2 then sendmsg (set_ctimer (set_cst c Srun) false) p no_tag
    else data_send cfg (set_cst c Scc) p.
(** A call of disc_rej from an API method: RangeError goes to the caller. *)
Definition api_disc (cfg : ncfg) (c : conn) (reason : Z) (payload : list Z) : res conn :=
  match disc_rej cfg c reason payload with Err ERange => Ok (emit c (ORaise RangeError)) | r => r end.
(** reject 1179-1187. *)
Definition conn_reject (cfg : ncfg) (c : conn) (reason : Z) (payload : list Z) : res conn :=
  if negb (cstate_eqb (cst c) Scr) then Ok (emit c (ORaise WrongState))
  else api_disc cfg (set_cst (set_ctimer c false) Sdi) reason payload.
(** disconnect 1206-1225. *)
Definition conn_disconnect (cfg : ncfg) (c : conn) (reason : Z) (payload : list Z) : res conn :=
  if negb (cstate_eqb (cst c) Srun) then Ok (emit c (ORaise WrongState))
  else match pending (cdata c) with
       | _ :: _ => Ok (set_cdisc (set_cshut c true) (reason, payload))
       | [] => api_disc cfg (set_cst c Sdi) reason payload
       end.
(** abort 1227-1237: the state changes only if disc_rej succeeds. *)
Definition conn_abort (cfg : ncfg) (c : conn) (reason : Z) (payload : list Z) : res conn :=
  if negb (cstate_eqb (cst c) Srun) then Ok (emit c (ORaise WrongState))
  else match disc_rej cfg c reason payload with
       | Err ERange => Ok (emit c (ORaise RangeError))
       | Err e => Err e
       | Ok c1 => Ok (set_cst c1 Sdi)
       end.
(** The segments of a message, send_data 1250-1258: (bom, eom, payload).  [fuel]
    bounds the number of segments. *)
Fixpoint cut (fuel : nat) (bom : Z) (size : Z) (data : list Z) : list (Z * Z * list Z) :=
  match fuel, data with
  | O, _ | _, [] => []
  | S f, _ =>
      if zlen data <=? size then [(bom, 1, data)]
      else (bom, 0, upto size data) :: cut f 0 size (from size data)
  end.
Fixpoint send_segs (cfg : ncfg) (c : conn) (l : list (Z * Z * list Z)) : res conn :=
  match l with
  | [] => Ok c
  | (bom, eom, pl) :: t => let* c1 := data_send cfg c (NData (cdst c) (csrc c) None None 0 0 bom eom pl) in send_segs cfg c1 t
  end.
(** send_data 1239-1259; range with step 0: ValueError. *)
Definition conn_send (cfg : ncfg) (c : conn) (data : list Z) : res conn :=
  if negb (cstate_eqb (cst c) Srun) || cshut c then Ok (emit c (ORaise WrongState))
  else if csegsize c =? 0 then Err EValue
  else send_segs cfg (emit c (OAccepted (csegsize c) data)) (cut (length data) 1 (csegsize c) data).
(** interrupt 1261-1280. *)
Definition conn_interrupt (cfg : ncfg) (c : conn) (data : list Z) : res conn :=
  if negb (cstate_eqb (cst c) Srun) || cshut c then Ok (emit c (ORaise WrongState))
  else if 16 <? zlen data then Ok (emit c (ORaise IntLength))
  else
    let* (c1, sent) := other_send c (NInt (cdst c) (csrc c) None None (seqnum (coth c)) data) in
    if sent then let* n := mod_add 4096 (seqnum (coth c1)) 1 in Ok (set_coth c1 (set_seqnum (coth c1) n)) else Ok c1.

(** ** Timers *)
(** The connection timer: cr 1389-1396, cd 1446-1455, run 1504-1513 (also for cc). *)
Definition conn_timeout (cfg : ncfg) (c : conn) : res conn :=
  if negb (ctimer c) then Ok c (* a timer that is not running does not expire, timers.py:88-121 *)
  else
    let c := set_ctimer c false in
    match cst c with
    | Scr => let* c := conn_reject cfg c OBJ_FAIL [] in Ok (to_sc c (NDI 0 0 OBJ_FAIL []) false)
    | Sci | Scd => Ok (conn_close (to_sc c (NDI 0 0 OBJ_FAIL []) true))
    | Scc | Srun =>
        let p := NLs (cdst c) (csrc c) None None (seqnum (coth c)) 0 0 0 in
        let* n := mod_add 4096 (seqnum (coth c)) 1 in
        let* (c1, _) := other_send (set_coth c (set_seqnum (coth c) n)) p in Ok c1
    | Sdi => Ok c
    | Sclosed => Err EAssert
    end.
(** The ack holdoff timer, 654-656. *)
Definition holdoff (c : conn) (ch : chan) : res conn :=
  if hold (getc c ch) then send_ack (putc c ch (set_hold (getc c ch) false)) ch else Ok c.
(** The retransmission timer of an entry: txqentry.dispatch 595-619. *)
Definition retransmit (cfg : ncfg) (c : conn) (ch : chan) (i : nat) : res conn :=
  match nth_error (pending (getc c ch)) i with
  | None => Ok c
  | Some e =>
      if negb (ttimer e) then Ok c
      else
        let put e1 := putc c ch (set_pending (getc c ch) (upd i e1 (pending (getc c ch)))) in
        let e0 := set_ttimer e false in
        if retransmits cfg <=? ttries e then
          if is_ci (tp e) then Ok (put e0)
          else Ok (conn_close (to_sc (put e0) (NDI 0 0 UNREACH []) false))
        else
          let e1 := set_tsent e0 false in
          let c1 := put e1 in
          if negb (is_data (tp e)) || flow_ok cfg (getc c1 ch) e1 then tx_send c1 ch i else Ok c1
  end.

(** ** Events *)
Inductive cev :=
  | VRecv (p : npkt) | VAccept (x : list Z) | VReject (r : Z) (x : list Z) | VDisconnect (r : Z) (x : list Z) | VAbort (r : Z) (x : list Z)
  | VSend (data : list Z) | VInterrupt (data : list Z) | VSetopt (rsts : bool) | VTimer | VHold (ch : chan) | VRetx (ch : chan) (i : nat).
Definition cstep (cfg : ncfg) (c : conn) (e : cev) : res conn :=
  match e with
  | VRecv p => conn_recv cfg c p
  | VAccept x => conn_accept cfg c x
  | VReject r x => conn_reject cfg c r x
  | VDisconnect r x => conn_disconnect cfg c r x
  | VAbort r x => conn_abort cfg c r x
  | VSend x => conn_send cfg c x
  | VInterrupt x => conn_interrupt cfg c x
  | VSetopt b => Ok (set_crsts c b)         (* setsockopt 1147-1152 *)
  | VTimer => conn_timeout cfg c
  | VHold ch => holdoff c ch
  | VRetx ch i => retransmit cfg c ch i
  end.
