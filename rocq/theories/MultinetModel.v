(** Multinet datalinks over TCP and UDP (multinet.py 71-390) and the state
    machine of point to point datalinks they use (datalink.py 306-560,
    statemachine.py 53-82). *)
From Verif Require Import Base.

(** *** TCP framing *)
(** _TcpMultinet.send (multinet.py:136-158) while running: the bytes given to
    socket.send. *)
Definition tcp_frame (msg : list Z) : res (list Z) :=
  let* h := to_bytes 2 (zlen msg) in Ok (h ++ [0; 0] ++ msg).
(** The receiving socket: the byte stream cut into the pieces in which it
    becomes available.  recv (n) returns at most n bytes of the first piece; an
    empty piece, or no piece, is a closed connection.

    PtpDatalink.recvall (datalink.py:349-383); None is the IOError.  Polling and
    thread stop signals are not modelled: a stop is a closed connection. *)
Fixpoint recvall (n : Z) (ret : list Z) (s : list (list Z)) : option (list Z * list (list Z)) :=
  if n <=? zlen ret then Some (ret, s)
  else match s with
       | [] => None
       | [] :: _ => None
       | seg :: s' =>
           let k := n - zlen ret in
           if zlen seg <=? k then recvall n (ret ++ seg) s'
           else Some (ret ++ upto k seg, from k seg :: s')
       end.
(** _TcpMultinet.receive_loop (multinet.py:117-134): the packets passed to
    addwork until the connection ends.  [fuel] bounds the iterations; each
    consumes at least four bytes. *)
Fixpoint receive_loop (fuel : nat) (s : list (list Z)) : list (list Z) :=
  match fuel with
  | O => []
  | S f =>
      match recvall 4 [] s with
      | None => []
      | Some (h, s) =>
          match recvall (le_dec (upto 2 h)) [] s with
          | None => []
          | Some (msg, s) => msg :: receive_loop f s
          end
      end
  end.
Definition tcp_receive (s : list (list Z)) : list (list Z) := receive_loop (length (concat s)) s.

(** *** UDP *)
(** _UdpMultinet.send (multinet.py:349-370): new sequence number and datagram. *)
Definition udp_send (seq : Z) (msg : list Z) : res (Z * list Z) :=
  let* h := to_bytes 2 seq in Ok (Z.land (seq + 1) 65535, h ++ [0; 0] ++ msg).
(** One datagram in _UdpMultinet.receive_loop (334-347). *)
Definition udp_receive (valid : bool) (datagram : list Z) : option (list Z) :=
  let msg := upto 1500 datagram in
  if zlen msg <=? 4 then None
  else if negb valid then None
  else Some (from 4 msg).

(** *** The point to point datalink state machine *)
Inductive dstate := S0 | Shutdown | Reconnecting | Connecting | Running.
Inductive item :=
| Start | Stop | Restart | Reconnect (now : bool)
| ThreadExit | Connected | Timeout | Received (packet : list Z).
Inductive out :=
| Up | Down | Data (packet : list Z)       (* work items for the port owner *)
| QStart | QReconnect (now : bool)         (* work items for the datalink itself *)
| Connect | Disconnect | NewThread | StopThread | SetTimer.

(** PtpDatalink.__init__ (314-325): the fields that matter.  [thread] is
    rthread is not None; [port] is port is not None. *)
Record dl := { st : dstate; is_up : bool; thread : bool; restart_now : bool; port : bool }.
Definition set_st (d : dl) (s : dstate) : dl :=
  {| st := s; is_up := is_up d; thread := thread d; restart_now := restart_now d; port := port d |}.
Definition set_up (d : dl) (u : bool) : dl :=
  {| st := st d; is_up := u; thread := thread d; restart_now := restart_now d; port := port d |}.
Definition set_thread (d : dl) (t : bool) : dl :=
  {| st := st d; is_up := is_up d; thread := t; restart_now := restart_now d; port := port d |}.
Definition set_now (d : dl) (n : bool) : dl :=
  {| st := st d; is_up := is_up d; thread := thread d; restart_now := n; port := port d |}.
Definition dl_init (p : bool) : dl :=
  {| st := S0; is_up := false; thread := false; restart_now := false; port := p |}.

(** report_up, report_down (datalink.py:385-401). *)
Definition report_up (d : dl) : dl * list out :=
  if negb (is_up d) then (set_up d true, if port d then [Up] else []) else (d, []).
Definition report_down (d : dl) : dl * list out :=
  if is_up d then (set_up d false, if port d then [Down] else []) else (d, []).
(** handle_stop (403-416): also the state it returns. *)
Definition handle_stop (d : dl) : dl * list out * dstate :=
  let o1 := if thread d then [StopThread] else [] in
  let (d, o2) := report_down d in
  (d, o1 ++ o2, if thread d then Shutdown else S0).
(** reconnecting on a ThreadExit or Reconnect item (492-505). *)
Definition reconnecting_go (d : dl) : dl * list out * option dstate :=
  if restart_now d then (set_now d false, [Disconnect; QStart], Some S0)
  else (d, [Disconnect; SetTimer], None).
(** handle_reconnect (418-432). *)
Definition handle_reconnect (d : dl) (now : bool) : dl * list out * option dstate :=
  let '(d, o1, _) := handle_stop d in
  let d := set_st (set_now d now) Reconnecting in
  if thread d then (d, o1, Some Reconnecting)
  else let '(d, o2, s) := reconnecting_go d in (d, o1 ++ o2, s).
Definition set_state (d : dl) (s : option dstate) : dl :=
  match s with Some s => set_st d s | None => d end.
(** PtpDatalink.validate (434-464) with _Multinet.validate (multinet.py:77-83):
    the flag tells whether the state action follows. *)
Definition validate (d : dl) (i : item) : dl * list out * bool :=
  match i with
  | Received _ => (d, [], true)
  | Restart => let '(d, o, s) := handle_reconnect d true in (set_state d s, o, false)
  | Stop => let '(d, o, s) := handle_stop d in (set_st d s, o, false)
  | Reconnect now => let '(d, o, s) := handle_reconnect d now in (set_state d s, o, false)
  | ThreadExit =>
      let d := match st d with Shutdown => d | _ => set_st d Reconnecting end in
      let (d, o) := report_down (set_thread d false) in (d, o, true)
  | _ => (d, [], true)
  end.
(** The state actions: s0, shutdown, reconnecting, connecting (466-520) and
    _Multinet.connected, running (multinet.py:71-75, 85-103).  Timers and
    sockets appear only as outputs. *)
Definition action (d : dl) (i : item) : dl * list out * option dstate :=
  match st d with
  | S0 => match i with
          | Start => let o := if thread d then [Connect] else [Connect; NewThread] in
                     (set_thread d true, o, Some Connecting)
          | _ => (d, [], None)
          end
  | Shutdown => match i with
                | ThreadExit => let (d, o) := report_down d in (d, Disconnect :: o, Some S0)
                | _ => (d, [], None)
                end
  | Reconnecting => match i with
                    | Timeout => (d, [QStart], Some S0)
                    | ThreadExit | Reconnect _ => reconnecting_go d
                    | _ => (d, [], None)
                    end
  | Connecting => match i with
                  | Connected => let (d, o) := report_up d in (d, o, Some Running)
                  | Timeout => (d, [QReconnect true], None)
                  | _ => (d, [], None)
                  end
  | Running => match i with
               | Received p => (d, if port d then [Data p] else [], None)
               | ThreadExit => (d, [QReconnect false], None)
               | _ => (d, [], None)
               end
  end.
(** StateMachine.dispatch (statemachine.py:55-72). *)
Definition dispatch (d : dl) (i : item) : dl * list out :=
  let '(d, o, go) := validate d i in
  if go then let '(d, o2, s) := action d i in (set_state d s, o ++ o2) else (d, o).
Fixpoint run (d : dl) (l : list item) : dl * list out :=
  match l with
  | [] => (d, [])
  | i :: l => let (d, o) := dispatch d i in let (d, o2) := run d l in (d, o ++ o2)
  end.
(** _Multinet.send does nothing unless running (multinet.py:138, 351). *)
Definition can_send (d : dl) : bool := match st d with Running => true | _ => false end.
