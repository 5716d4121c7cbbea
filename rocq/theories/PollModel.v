(** The poll of one node by the network mapper: mapper.py 803-1174 (NodePoller).  The
    connection and the decoding of messages are inputs: of a message the code, and what
    decoding as the reply expected makes of it.  The database entries that a poll
    changes (type, identification, adjacencies) are not modelled, except whether the
    node is marked as up. *)
From Verif Require Import Base.

(** The requests: executor characteristics, known circuits, active nodes; Phase II
    executor and known lines. *)
Inductive request := RqExec | RqCirc | RqNode | RqP2Exec | RqP2Line.
(** Replies: of a circuit (or line) with its neighbour, of a node with whether it
    counts as active (1135-1138), others. *)
Inductive reply := RCirc (circ : Z) (adj : option Z) | RNode (id : Z) (active : bool) | ROther.
(** A message: its first byte as a signed number (None if it is empty), its count if
    it can be read as P2NiceReply3, and what it is if read as the reply class. *)
Record msg := mkMsg { g_code : option Z; g_count : option Z; g_body : option reply }.
Inductive input :=
| IAccept (phase2 : bool) | IReject (reason : Z) | IData (m : msg) | IDisc | ITimeout | IOther.
(** What is fixed in a poll: is it of the mapper's own node, is it for a full scan,
    which adjacencies come up by it, does sending a request fail. *)
Record pcfg := mkCfg { c_self : bool; c_full : bool; c_nowup : Z -> Z -> bool; c_fail : request -> bool }.
Inductive pphase := PConnecting | PPolling.
(** The poller.  [p_closed], [p_reports], [p_sent] are not in the code: whether it has
    ended its connection, the reports (PollDone) and requests sent. *)
Record poller := mkP {
  p_state : pphase; p_req : request; p_replies : list reply; p_mult : bool; p_count : option Z; p_phase2 : bool;
  p_timer : bool; p_todo : list Z; p_up : bool; p_closed : bool; p_reports : list (list Z); p_sent : list request }.
Definition poll0 : poller := mkP PConnecting RqExec [] false None false false [] false false [] [].
Definition UNREACH : Z := 39.
Definition OBJ_FAIL : Z := 38.
(** finished, 990-1001: disconnects, reports, stops the timer; the state stays. *)
Definition finished (p : poller) : poller :=
  mkP (p_state p) (p_req p) (p_replies p) (p_mult p) (p_count p) (p_phase2 p) false (p_todo p) (p_up p) true (p_reports p ++ [p_todo p]) (p_sent p).
(** next_request, 972-988. *)
Definition next_request (c : pcfg) (r : request) (p : poller) : poller :=
  if c_fail c r then finished p
  else mkP PPolling r [] false None (p_phase2 p) true (p_todo p) (p_up p) (p_closed p) (p_reports p) (p_sent p ++ [r]).
Definition add_todo (l : list Z) (p : poller) : poller :=
  mkP (p_state p) (p_req p) (p_replies p) (p_mult p) (p_count p) (p_phase2 p) (p_timer p) (p_todo p ++ l) (p_up p) (p_closed p) (p_reports p) (p_sent p).
(** What procknocirc and procp2line, 1056-1078 and 1100-1117, and procactnode,
    1123-1171, add to todo. *)
Definition neighbours (c : pcfg) (l : list reply) : list Z :=
  flat_map (fun r => match r with RCirc ci (Some n) => if c_full c || c_nowup c ci n then [n] else [] | _ => [] end) l.
Definition actives (c : pcfg) (l : list reply) : list Z :=
  flat_map (fun r => match r with RNode n true => if c_full c then [n] else [] | _ => [] end) l.
(** The handlers of complete replies, 1003-1174. *)
Definition handler (c : pcfg) (l : list reply) (p : poller) : poller :=
  match p_req p with
  | RqExec => next_request c RqCirc p
  | RqCirc => let p := add_todo (neighbours c l) p in if c_self c then finished p else next_request c RqNode p
  | RqNode => finished (add_todo (actives c l) p)
  | RqP2Exec => next_request c RqP2Line p
  | RqP2Line => finished (add_todo (neighbours c l) p)
  end.
(** A message in the state polling, 877-958.  An exception leaves everything, the
    timer too: None. *)
Definition wait (p : poller) (replies : list reply) (mult : bool) (count : option Z) : poller :=
  mkP (p_state p) (p_req p) replies mult count (p_phase2 p) true (p_todo p) (p_up p) (p_closed p) (p_reports p) (p_sent p).
Definition data (c : pcfg) (m : msg) (p : poller) : option poller :=
  if p_phase2 p then
    match p_count p with
    | None =>
        match g_code m with
        | None => None
        | Some k =>
            if negb (k =? 1) then Some (finished p)
            else match g_count m with
                 | None => Some (finished p)
                 | Some n => if n =? 0 then Some (handler c (p_replies p) p) else Some (wait p (p_replies p) (p_mult p) (Some n))
                 end
        end
    | Some n =>
        match g_body m with
        | None => Some (finished p)
        | Some r =>
            let l := p_replies p ++ [r] in
            if n - 1 =? 0 then Some (handler c l p) else Some (wait p l (p_mult p) (Some (n - 1)))
        end
    end
  else
    match g_code m with
    | None => None
    | Some k =>
        if k =? -128 then Some (handler c (p_replies p) p)
        else if k <? 0 then Some (finished p)
        else if k =? 2 then match p_replies p with [] => Some (wait p [] true (p_count p)) | _ => None end
        else match g_body m with
             | None => Some (finished p)
             | Some r => let l := p_replies p ++ [r] in
                         if p_mult p then Some (wait p l true (p_count p)) else Some (handler c l p)
             end
    end.
Definition mark_up (p : poller) : poller :=
  mkP (p_state p) (p_req p) (p_replies p) (p_mult p) (p_count p) (p_phase2 p) (p_timer p) (p_todo p) true (p_closed p) (p_reports p) (p_sent p).
Definition set_phase2 (b : bool) (p : poller) : poller :=
  mkP (p_state p) (p_req p) (p_replies p) (p_mult p) (p_count p) b (p_timer p) (p_todo p) (p_up p) (p_closed p) (p_reports p) (p_sent p).
(** connecting, 838-875, and polling. *)
Definition pstep (c : pcfg) (p : poller) (i : input) : poller :=
  match p_state p with
  | PConnecting =>
      match i with
      | IAccept ph2 => next_request c (if ph2 then RqP2Exec else RqExec) (set_phase2 ph2 (mark_up p))
      | IReject r => finished (if (r =? UNREACH) || (r =? OBJ_FAIL) then p else mark_up p)
      | _ => p
      end
  | PPolling =>
      match i with
      | IData m => match data c m p with Some p' => p' | None => p end
      | _ => finished p
      end
  end.
Definition prun (c : pcfg) (l : list input) : poller := fold_left (pstep c) l poll0.
