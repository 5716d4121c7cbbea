(** The broadcast circuit of an endnode with the routing layer above it:
    /repo/pydecnet/decnet/route_eth.py, NiCacheEntry (232-253) and
    EndnodeLanCircuit (255-417), adjacency.py (26-114), and routing.py,
    EndnodeRouting (660-712) with SelfAdj.send (137-152).

    Packets arrive decoded (common_dispatch, 93-140, ignores frames from the own
    address and what does not decode).  Time is counted in ticks of one second;
    a timer started for n seconds expires in the n-th tick after that
    (TimersProps).  Cache entries are objects with serial numbers, because the
    timer of an entry keeps running when the entry is dropped from the table.
    Counters and log text are not modelled.  Node addresses are numbers
    area * 1024 + tid, MAC addresses lists of bytes. *)
From Verif Require Import Base Dict AddrModel.

(** Own address, hello timer, whether the circuit has a loop node. *)
Record ecfg := { e_id : Z; e_t3 : Z; e_loop : bool }.
(** The designated router: its listen time, and when the listen timer expires. *)
Record edr := { d_id : Z; d_t4 : Z; d_at : Z }.
Record est := { now : Z; edr_ : option edr; prevhops : dict Z (list Z * Z); tmrs : dict Z (Z * Z); nxt : Z; hello_at : Z }.
(** The parts of a data packet used here. *)
Record dpkt := { p_dst : Z; p_src : Z; p_rqr : bool; p_rts : bool; p_data : list Z }.
Inductive eev :=
  | ERouter (id timer : Z)                               (* router hello *)
  | EData (src : list Z) (p : dpkt)                      (* data packet, and the address of the station that sent the frame *)
  | ESend (dest : option Z) (data : list Z) (rqr tryhard : bool)  (* NSP sends; None: to the loop node *)
  | ETick (hello_first : bool).                          (* one second; the order in which timers expire in it *)
Inductive eout :=
  | OFrame (mac : list Z) (p : dpkt)                     (* data packet sent to a station *)
  | OHello (neighbor : list Z)                           (* hello to all routers *)
  | OUp (id : Z) | ODown (id : Z)                        (* routing.adj_up, adj_down *)
  | OEvUp (id : Z) | OEvDown (id : Z)                    (* events *)
  | ONsp (src : option Z) (data : list Z) (rts : bool).  (* Received for NSP; None: the loop circuit *)

Definition CACHETIME : Z := 60.   (* 239 *)
(** adjacency.py:33-36: int (timer * 3.1), which for 16 bit integers is exactly
    this. *)
Definition listen (C : ecfg) (timer : Z) : Z :=
  let t4 := timer * 31 / 10 in if t4 =? 0 then e_t3 C * 31 / 10 else t4.
Definition area (id : Z) : Z := nid_area id.
(** Macaddr (Nodeid), common.py; a node address always fits. *)
Definition nmac (id : Z) : list Z := match mac_of_nodeid id with Ok m => m | Err _ => [] end.
Definition NULLID : list Z := [0; 0; 0; 0; 0; 0].
Definition set_dr s d := {| now := now s; edr_ := d; prevhops := prevhops s; tmrs := tmrs s; nxt := nxt s; hello_at := hello_at s |}.
Definition set_prev s p t n := {| now := now s; edr_ := edr_ s; prevhops := p; tmrs := t; nxt := n; hello_at := hello_at s |}.

(** sendhello, 303-311. *)
Definition sendhello (C : ecfg) (s : est) : est * list eout :=
  ({| now := now s; edr_ := edr_ s; prevhops := prevhops s; tmrs := tmrs s; nxt := nxt s; hello_at := now s + e_t3 C |},
   [OHello (match edr_ s with Some d => nmac (d_id d) | None => NULLID end)]).
(** start, 81-83. *)
Definition estart (C : ecfg) : est * list eout :=
  sendhello C {| now := 0; edr_ := None; prevhops := []; tmrs := []; nxt := 0; hello_at := 0 |}.
(** A new designated router, 337-345 and 349-357. *)
Definition newdr (C : ecfg) (s : est) (id timer : Z) : est * list eout :=
  (set_dr s (Some {| d_id := id; d_t4 := listen C timer; d_at := now s + listen C timer |}), [OEvUp id; OUp id]).
(** Router hello, 321-357. *)
Definition router (C : ecfg) (s : est) (id timer : Z) : est * list eout :=
  if negb (area id =? area (e_id C)) then (s, [])
  else match edr_ s with
       | Some d =>
           if negb (d_id d =? id) then
             let (s, o) := newdr C s id timer in (s, [OEvDown (d_id d); ODown (d_id d)] ++ o)
           else (set_dr s (Some {| d_id := d_id d; d_t4 := d_t4 d; d_at := now s + d_t4 d |}), [])
       | None => newdr C s id timer
       end.
(** NiCacheEntry.alive, 248-250, of the entry or of a new one, 363-367. *)
Definition remember (s : est) (n : Z) (src : list Z) : est :=
  match dget Z.eqb (prevhops s) n with
  | Some (_, k) => set_prev s (dset Z.eqb (prevhops s) n (src, k)) (dset Z.eqb (tmrs s) k (n, now s + CACHETIME)) (nxt s)
  | None => set_prev s (dset Z.eqb (prevhops s) n (src, nxt s)) (dset Z.eqb (tmrs s) (nxt s) (n, now s + CACHETIME)) (nxt s + 1)
  end.
(** EndnodeRouting.dispatch (routing.py:706-712) and SelfAdj.send (137-152).
    [fromnet]: the packet came with the circuit's pseudo adjacency as source. *)
Definition deliver (C : ecfg) (fromnet : bool) (p : dpkt) : list eout :=
  if p_dst p =? e_id C then
    [ONsp (if fromnet && (p_src p =? e_id C) && e_loop C then None else Some (p_src p)) (p_data p) (p_rts p)]
  else [].
(** cache_expire, 371-375: the timer is left alone. *)
Definition cache_expire (s : est) (n : Z) : est := set_prev s (ddel Z.eqb (prevhops s) n) (tmrs s) (nxt s).
(** send, 377-404, with no next hop; the result is whether the return value
    counts as true (the cached case returns None). *)
Definition csend (C : ecfg) (s : est) (p : dpkt) (tryhard : bool) : est * list eout * bool :=
  let s1 := if tryhard then cache_expire s (p_dst p) else s in
  match (if tryhard then None else dget Z.eqb (prevhops s) (p_dst p)) with
  | Some (m, _) => (s1, [OFrame m p], false)
  | None =>
      match edr_ s1 with
      | Some d => (s1, [OFrame (nmac (d_id d)) p], true)
      | None => if p_dst p =? e_id C then (s1, [], false) else (s1, [OFrame (nmac (p_dst p)) p], true)
      end
  end.
(** EndnodeRouting.send, routing.py:676-704. *)
Definition rsend (C : ecfg) (s : est) (dest : option Z) (data : list Z) (rqr tryhard : bool) : est * list eout :=
  let p := {| p_dst := match dest with Some d => d | None => e_id C end; p_src := e_id C; p_rqr := rqr; p_rts := false; p_data := data |} in
  if match dest with Some d => d =? e_id C | None => false end then (s, deliver C false p)
  else
    let '(s, o, ok) := csend C s p tryhard in
    if negb ok && rqr then
      (s, o ++ deliver C false {| p_dst := p_src p; p_src := p_dst p; p_rqr := false; p_rts := true; p_data := data |})
    else (s, o).
(** The cache entries whose timers expire now, NiCacheEntry.dispatch, 245-246. *)
Definition expire_cache (s : est) : est :=
  let due := filter (fun kv => snd (snd kv) =? now s) (tmrs s) in
  set_prev s (fold_left (fun d kv => ddel Z.eqb d (fst (snd kv))) due (prevhops s))
             (filter (fun kv => negb (snd (snd kv) =? now s)) (tmrs s)) (nxt s).
(** The listen timer of the router, adjacency.py:84-90 and 290-301: down is
    called twice. *)
Definition expire_dr (s : est) : est * list eout :=
  match edr_ s with
  | Some d => if d_at d =? now s then (set_dr s None, [ODown (d_id d); OEvDown (d_id d); ODown (d_id d)]) else (s, [])
  | None => (s, [])
  end.
Definition expire_hello (C : ecfg) (s : est) : est * list eout := if hello_at s =? now s then sendhello C s else (s, []).
Definition tick (C : ecfg) (s : est) (hello_first : bool) : est * list eout :=
  let s := expire_cache {| now := now s + 1; edr_ := edr_ s; prevhops := prevhops s; tmrs := tmrs s; nxt := nxt s; hello_at := hello_at s |} in
  if hello_first then let (s, o1) := expire_hello C s in let (s, o2) := expire_dr s in (s, o1 ++ o2)
  else let (s, o1) := expire_dr s in let (s, o2) := expire_hello C s in (s, o1 ++ o2).
Definition estep (C : ecfg) (s : est) (e : eev) : est * list eout :=
  match e with
  | ERouter id timer => router C s id timer
  | EData src p => (remember s (p_src p) src, deliver C true p)
  | ESend dest data rqr tryhard => rsend C s dest data rqr tryhard
  | ETick f => tick C s f
  end.
Fixpoint eruns (C : ecfg) (s : est) (h : list eev) : est :=
  match h with [] => s | e :: t => eruns C (fst (estep C s e)) t end.
(** The state after a history, from the start of the circuit. *)
Definition erun (C : ecfg) (h : list eev) : est := eruns C (fst (estart C)) h.
