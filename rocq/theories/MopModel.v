(** MOP requests and replies: /repo/pydecnet/decnet/mop.py, ReceiptGen (26-46),
    MopConnection (468-497), CounterConnection (499-524), MopCircuit.request,
    deliver and done (579-619), LoopConnection (1206-1300), with Mop.end_api
    (412-414) and the API server's treatment of an exception
    (apiserver.py:42-119).

    Circuits, API clients and connection objects are numbers.  The messages
    themselves are in MopLoopModel.  A reply is any received LoopReply, SysId or
    Counters message with that receipt number (639-647, 1329-1333).  API calls
    run in threads of their own; here each call is one step.  The timer of a
    connection expires only if it has been started and not stopped since
    (C03-C05, timers.py); the times themselves are not modelled. *)
From Verif Require Import Base Dict.

(** ReceiptGen.next, 35-42: the number given out and the next one. *)
Definition rnext (g : Z) : Z * Z := (g, if g =? 65535 then 1 else g + 1).

(** A LoopConnection: its circuit and client, rnum, whether its timer runs,
    waiting, packets - len (delays), fast, nml, and whether it is in
    mop.connections. *)
Record conn := { k_circ : Z; k_client : Z; k_rnum : option Z; k_tmr : bool; k_wait : bool; k_left : Z; k_fast : bool; k_nml : bool; k_listed : bool }.
Definition key := (Z * Z)%type.
Definition key_eqb (a b : key) : bool := (fst a =? fst b) && (snd a =? snd b).
(** The receipt generator (global), the connections ever made, self.requests of
    each circuit. *)
Record mop := { m_gen : Z; m_conns : dict Z conn; m_next : Z; m_reqs : dict key Z }.
Definition mstart (g : Z) : mop := {| m_gen := g; m_conns := []; m_next := 0; m_reqs := [] |}.
Inductive mout :=
  | ODraw (r : Z)                (* receipt.next () *)
  | OSend (c k r : Z)            (* connection c sends a request with receipt r on circuit k *)
  | OReply (c k r : Z)           (* a reply with receipt r given to c *)
  | OTimeout (c : Z)             (* a request of c is given up *)
  | OCancel (c : Z)              (* c is cancelled by its client *)
  | ODone (c : Z)                (* c reports its results *)
  | OApiError (cl : Z).          (* an API call ends in an exception *)
Inductive mev :=
  | MLoop (cl k packets : Z) (fast nml long : bool)   (* loop request; long: message over 1500 bytes *)
  | MCounters (cl k : Z)                              (* counter request *)
  | MReply (k r : Z) | MTimeout (c : Z) | MEndApi (cl : Z).

Definition setgen m x := {| m_gen := x; m_conns := m_conns m; m_next := m_next m; m_reqs := m_reqs m |}.
Definition setconns m x := {| m_gen := m_gen m; m_conns := x; m_next := m_next m; m_reqs := m_reqs m |}.
Definition setreqs m x := {| m_gen := m_gen m; m_conns := m_conns m; m_next := m_next m; m_reqs := x |}.
Definition putconn m c x := setconns m (dset Z.eqb (m_conns m) c x).
Definition with_req x r := {| k_circ := k_circ x; k_client := k_client x; k_rnum := r; k_tmr := match r with Some _ => true | None => false end; k_wait := false; k_left := k_left x; k_fast := k_fast x; k_nml := k_nml x; k_listed := k_listed x |}.
Definition with_wait x := {| k_circ := k_circ x; k_client := k_client x; k_rnum := k_rnum x; k_tmr := true; k_wait := true; k_left := k_left x; k_fast := k_fast x; k_nml := k_nml x; k_listed := k_listed x |}.
Definition with_left x n := {| k_circ := k_circ x; k_client := k_client x; k_rnum := k_rnum x; k_tmr := k_tmr x; k_wait := k_wait x; k_left := n; k_fast := k_fast x; k_nml := k_nml x; k_listed := k_listed x |}.
Definition with_tmr x b := {| k_circ := k_circ x; k_client := k_client x; k_rnum := k_rnum x; k_tmr := b; k_wait := k_wait x; k_left := k_left x; k_fast := k_fast x; k_nml := k_nml x; k_listed := k_listed x |}.

(** cancel 484-492: no longer in mop.connections; a request under way is done
    and the timer stopped. *)
Definition cancelled (x : conn) : conn :=
  {| k_circ := k_circ x; k_client := k_client x; k_rnum := None; k_tmr := match k_rnum x with Some _ => false | None => k_tmr x end;
     k_wait := k_wait x; k_left := k_left x; k_fast := k_fast x; k_nml := k_nml x; k_listed := false |}.
Definition cancel (m : mop) (c : Z) (x : conn) : mop :=
  let m1 := match k_rnum x with Some r => setreqs m (ddel key_eqb (m_reqs m) (k_circ x, r)) | None => m end in
  putconn m1 c (cancelled x).
(** send_req 1278-1283, buildloop 1293-1299, MopConnection.request 479-481,
    MopCircuit.request 599-606 with a receipt. *)
Definition send_req (m : mop) (c : Z) (x : conn) : mop * list mout :=
  let '(r, g) := rnext (m_gen m) in
  (putconn (setreqs (setgen m g) (dset key_eqb (m_reqs m) (k_circ x, r) c)) c (with_req x (Some r)), [ODraw r; OSend c (k_circ x) r]).
(** LoopConnection.dispatch 1207-1236 of a reply (true) or a timeout (false),
    after cancel. *)
Definition loop_dispatch (m : mop) (c : Z) (x : conn) (reply : bool) : mop * list mout :=
  if reply then
    let x1 := with_left x (k_left x - 1) in
    if k_left x1 =? 0 then (putconn m c x1, [ODone c])
    else if k_fast x1 then send_req m c x1 else (putconn m c (with_wait x1), [])
  else if k_wait x then send_req m c x
  else if k_nml x then (m, [ODone c])
  else let x1 := with_left x (k_left x - 1) in
       if k_left x1 =? 0 then (putconn m c x1, [ODone c]) else send_req m c x1.
(** Mop.end_api 412-414: all connections of the client that are listed. *)
Fixpoint end_api (m : mop) (cl : Z) (l : list Z) : mop * list mout :=
  match l with
  | [] => (m, [])
  | c :: t =>
    match dget Z.eqb (m_conns m) c with
    | Some x => if k_listed x && (k_client x =? cl)
                then let '(m1, o1) := end_api (cancel m c x) cl t in (m1, OCancel c :: o1)
                else end_api m cl t
    | None => end_api m cl t
    end
  end.
Definition mstep (m : mop) (e : mev) : mop * list mout :=
  match e with
  | MLoop cl k packets fast nml long =>
    (* api 1357-1358, start 1238-1276; a receipt is used up for the check of
       the message length *)
    let c := m_next m in
    let x := {| k_circ := k; k_client := cl; k_rnum := None; k_tmr := false; k_wait := false; k_left := packets; k_fast := fast || nml; k_nml := nml; k_listed := true |} in
    let m1 := {| m_gen := m_gen m; m_conns := dset Z.eqb (m_conns m) c x; m_next := c + 1; m_reqs := m_reqs m |} in
    if packets <? 1 then (m1, [])
    else
      let '(r, g) := rnext (m_gen m1) in
      let m2 := setgen m1 g in
      if long then (m2, [ODraw r]) else let '(m3, o3) := send_req m2 c x in (m3, ODraw r :: o3)
  | MCounters cl k =>
    (* 599-600: the parameter receipt hides the generator, so that
       receipt.next is an attribute of None; the handler of the API client
       ends (apiserver.py:43, 107-109) and with it its connections *)
    let '(m1, o1) := end_api m cl (dkeys (m_conns m)) in (m1, OApiError cl :: o1)
  | MReply k r =>
    (* deliver 609-614 *)
    if r =? 0 then (m, [])
    else match dget key_eqb (m_reqs m) (k, r) with
         | None => (m, [])
         | Some c =>
           let m1 := setreqs m (ddel key_eqb (m_reqs m) (k, r)) in
           match dget Z.eqb (m_conns m1) c with
           | None => (m1, [])
           | Some x => let '(m2, o2) := loop_dispatch (cancel m1 c x) c (cancelled x) true in (m2, OReply c k r :: o2)
           end
         end
  | MTimeout c =>
    match dget Z.eqb (m_conns m) c with
    | None => (m, [])
    | Some x => if k_tmr x then let x1 := with_tmr x false in
                                let '(m2, o2) := loop_dispatch (cancel m c x1) c (cancelled x1) false in
                                (m2, (if k_wait x then [] else [OTimeout c]) ++ o2)
                else (m, [])
    end
  | MEndApi cl => end_api m cl (dkeys (m_conns m))
  end.
Fixpoint mrun (m : mop) (l : list mev) : mop * list mout :=
  match l with [] => (m, []) | e :: t => let '(m1, o1) := mstep m e in let '(m2, o2) := mrun m1 t in (m2, o1 ++ o2) end.
