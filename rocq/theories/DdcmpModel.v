(** The DDCMP protocol state machine: ddcmp.py 386-860 (class _DDCMP), with the
    parts of datalink.py it calls.  Messages are the decoded ones; framing and
    CRCs are in DdcmpFrameModel.v. *)
From Verif Require Import Base.

(** Sequence numbers modulo 256 (ddcmp.py:66-77, modulo.py). *)
Definition sadd (x : Z) (k : Z) : Z := (x + k) mod 256.
Definition ssub (x y : Z) : Z := (x - y) mod 256.

(** Messages (140-303): the fields the state machine looks at. *)
Inductive msg :=
| DataM (resp num : Z) (payload : list Z)
| AckM (resp : Z)
| NakM (code resp : Z)
| RepM (num : Z)
| StartM
| StackM
| MaintM (payload : list Z).

(** States.  [Off] is any state of the connection handling in datalink.py (s0,
    shutdown, reconnecting, connecting), where messages are ignored. *)
Inductive pstate := Off | Istart | Astart | Running | Maint.

(** Inputs: Connected is the call of connected () when the connection is made;
    Lost is a Stop, Reconnect or ThreadExit item (datalink.py:434-464); Send is
    the call of send () by the port's user.  RErr is an Err work item. *)
Inductive event :=
| Connected | Lost | Restart | Timeout
| Recv (m : msg)
| RErr (code : Z) (resp : option Z)
| Send (data : list Z).
(** Outputs.  Timers, counters and logging are left out: Timeout is allowed at
    any time instead. *)
Inductive out := Tx (m : msg) | Up | Down | Deliver (data : list Z).

(** The fields (init_state, 409-429).  unack is an array with 256 entries. *)
Record stn := { st : pstate; r : Z; a : Z; n : Z; ackflag : bool;
                unack : Z -> option (list Z); notsent : list (list Z); is_up : bool }.
Definition upd (f : Z -> option (list Z)) (i : Z) (v : option (list Z)) : Z -> option (list Z) :=
  fun j => if j =? i then v else f j.
Definition empty_q : Z -> option (list Z) := fun _ => None.
Definition init_state (s : stn) : stn :=
  {| st := st s; r := 0; a := 0; n := 0; ackflag := false; unack := empty_q; notsent := []; is_up := is_up s |}.
Definition set_st (s : stn) (x : pstate) : stn :=
  {| st := x; r := r s; a := a s; n := n s; ackflag := ackflag s; unack := unack s; notsent := notsent s; is_up := is_up s |}.
Definition set_r (s : stn) (x : Z) : stn :=
  {| st := st s; r := x; a := a s; n := n s; ackflag := ackflag s; unack := unack s; notsent := notsent s; is_up := is_up s |}.
Definition set_ack (s : stn) (x : bool) : stn :=
  {| st := st s; r := r s; a := a s; n := n s; ackflag := x; unack := unack s; notsent := notsent s; is_up := is_up s |}.
Definition set_up (s : stn) (x : bool) : stn :=
  {| st := st s; r := r s; a := a s; n := n s; ackflag := ackflag s; unack := unack s; notsent := notsent s; is_up := x |}.
Definition set_tx (s : stn) (a' n' : Z) (u : Z -> option (list Z)) (q : list (list Z)) : stn :=
  {| st := st s; r := r s; a := a'; n := n'; ackflag := ackflag s; unack := u; notsent := q; is_up := is_up s |}.
Definition station : stn :=
  {| st := Off; r := 0; a := 0; n := 0; ackflag := false; unack := empty_q; notsent := []; is_up := false |}.

Definition is_running (s : stn) : bool := match st s with Running => true | _ => false end.
(** cansend (431-432). *)
Definition cansend (qmax : Z) (s : stn) : bool := ssub (n s) (a s) <? qmax.
(** report_up, report_down (datalink.py:385-401), with a port open. *)
Definition report_up (s : stn) : stn * list out := if negb (is_up s) then (set_up s true, [Up]) else (s, []).
Definition report_down (s : stn) : stn * list out := if is_up s then (set_up s false, [Down]) else (s, []).

(** sendmsg (527-555) for messages with a resp field: fills it in and clears
    ackflag. *)
Definition tx_data (s : stn) (num : Z) (payload : list Z) : stn * list out :=
  (set_ack s false, [Tx (DataM (r s) num payload)]).
Definition send_ack (s : stn) : stn * list out := (set_ack s false, [Tx (AckM (r s))]).
Definition send_nak (s : stn) (code : Z) : stn * list out := (set_ack s false, [Tx (NakM code (r s))]).
Definition send_rep (s : stn) : stn * list out := (s, [Tx (RepM (n s))]).

(** send (831-866). *)
Definition send (qmax : Z) (s : stn) (data : list Z) (queue : bool) : res (stn * list out) :=
  if is_running s then
    if negb (cansend qmax s) then Ok (set_tx s (a s) (n s) (unack s) (notsent s ++ [data]), [])
    else
      let n' := sadd (n s) 1 in
      match unack s n' with
      | Some _ => Err EAssert
      | None =>
          let s := set_tx s (a s) n' (upd (unack s) n' (Some data)) (notsent s) in
          if queue then Ok (s, []) else Ok (tx_data s n' data)
      end
  else Ok (s, []).

(** process_ack (731-781).  First the loop over the acknowledged messages. *)
Fixpoint ack_loop (count : nat) (s : stn) : res stn :=
  match count with
  | O => Ok s
  | S c =>
      let a' := sadd (a s) 1 in
      match unack s a' with
      | None => Err EAssert
      | Some _ => ack_loop c (set_tx s a' (n s) (upd (unack s) a' None) (notsent s))
      end
  end.
(** Then sending from the queue of waiting messages (769-778), which gets
    shorter each time: get_nowait takes the message off before send. *)
Fixpoint drain (fuel : nat) (qmax : Z) (s : stn) (nak : bool) : res (stn * list out) :=
  match fuel with
  | O => Ok (s, [])
  | S f =>
      if cansend qmax s then
        match notsent s with
        | [] => Ok (s, [])
        | d :: q =>
            let* (s, o1) := send qmax (set_tx s (a s) (n s) (unack s) q) d nak in
            let* (s, o2) := drain f qmax s nak in Ok (s, o1 ++ o2)
        end
      else Ok (s, [])
  end.
(** The flag is the return value. *)
Definition process_ack (qmax : Z) (s : stn) (resp : Z) (nak : bool) : res (stn * list out * bool) :=
  let count := ssub resp (a s) in
  let pend := ssub (n s) (a s) in
  if pend <? count then Ok (s, [], false)
  else
    let* s := ack_loop (Z.to_nat count) s in
    let* (s, o) := drain (length (notsent s)) qmax s nak in
    Ok (s, o, true).
(** retransmit (783-793). *)
Fixpoint retransmit_loop (count : nat) (t : Z) (s : stn) : res (stn * list out) :=
  match count with
  | O => Ok (s, [])
  | S c =>
      let t := sadd t 1 in
      match unack s t with
      | None => Err EAssert
      | Some d => let (s, o1) := tx_data s t d in
                  let* (s, o2) := retransmit_loop c t s in Ok (s, o1 ++ o2)
      end
  end.
Definition retransmit (s : stn) : res (stn * list out) :=
  retransmit_loop (Z.to_nat (ssub (n s) (a s))) (a s) s.

(** connected (434-444) and do_restart (446-461). *)
Definition connected (s : stn) : stn * list out := (set_st (init_state s) Istart, [Tx StartM]).
Definition do_restart (s : stn) : stn * list out :=
  let (s, o1) := (if is_running s then report_down s else (s, [])) in
  match st s with
  | Istart => (s, o1)
  | _ => let (s, o2) := connected s in (s, o1 ++ o2)
  end.
(** running_state (635-646). *)
Definition running_state (s : stn) (ack : bool) : stn * list out :=
  let (s, o1) := report_up s in
  let s := set_st s Running in
  if ack then let (s, o2) := send_ack s in (s, o1 ++ o2) else (s, o1).

(** The end of running (711-716). *)
Definition finish (s : stn) : stn * list out := if ackflag s then send_ack s else (s, []).
Definition then_finish (s : stn) (o : list out) : stn * list out := let (s, o2) := finish s in (s, o ++ o2).
(** running (648-716) on a received message. *)
Definition running_recv (qmax : Z) (s : stn) (m : msg) : res (stn * list out) :=
  match m with
  | DataM resp num payload =>
      let* (s, o, _) := process_ack qmax s resp false in
      let r1 := sadd (r s) 1 in
      if negb (num =? r1) then Ok (s, o)
      else Ok (then_finish (set_ack (set_r s r1) true) (o ++ [Deliver payload]))
  | AckM resp => let* (s, o, _) := process_ack qmax s resp false in Ok (then_finish s o)
  | NakM _ resp =>
      let* (s, o, good) := process_ack qmax s resp true in
      if good then let* (s, o2) := retransmit s in Ok (then_finish s (o ++ o2))
      else Ok (then_finish s o)
  | RepM num =>
      if num =? r s then Ok (then_finish (set_ack s true) [])
      else let (s, o) := send_nak s 3 in Ok (then_finish s o)
  | MaintM _ =>
      let (s, o) := report_down (init_state s) in Ok (set_st s Maint, o)
  | StartM => Ok (do_restart s)
  | StackM => Ok (then_finish (set_ack s true) [])
  end.
(** The state functions Istart (557-591), Astart (593-633), running, Maint
    (795-829). *)
Definition step (qmax : Z) (s : stn) (e : event) : res (stn * list out) :=
  match e with
  | Send d => send qmax s d false
  | Lost => let (s, o) := report_down s in Ok (set_st s Off, o)
  | _ =>
    match st s with
    | Off => match e with Connected => Ok (connected s) | _ => Ok (s, []) end
    | Istart =>
        match e with
        | Timeout => Ok (s, [Tx StartM])
        | Recv StartM => Ok (set_st s Astart, [Tx StackM])
        | Recv StackM => Ok (running_state s true)
        | Recv (MaintM _) => Ok (set_st (init_state s) Maint, [])
        | _ => Ok (s, [])
        end
    | Astart =>
        match e with
        | Timeout => Ok (s, [Tx StackM])
        (* A Start is tested for only as the item itself, never as the packet
           of a Received item (601), so it is ignored. *)
        | Recv StackM => Ok (running_state s true)
        | Recv (MaintM _) => Ok (set_st (init_state s) Maint, [])
        | Recv (AckM resp) =>
            if resp =? 0 then
              let (s, o1) := running_state s false in
              let* (s, o2) := running_recv qmax s (AckM resp) in Ok (s, o1 ++ o2)
            else Ok (s, [])
        | Recv (DataM resp num p) =>
            if resp =? 0 then
              let (s, o1) := running_state s false in
              let* (s, o2) := running_recv qmax s (DataM resp num p) in Ok (s, o1 ++ o2)
            else Ok (s, [])
        | Restart => Ok (do_restart s)
        | _ => Ok (s, [])
        end
    | Running =>
        match e with
        | Recv m => running_recv qmax s m
        | Timeout => let (s, o) := send_rep s in Ok (then_finish s o)
        | RErr code resp =>
            let* (s, o) := (match resp with
                            | Some x => let* (s, o, _) := process_ack qmax s x false in Ok (s, o)
                            | None => Ok (s, [])
                            end) in
            let (s, o2) := send_nak s code in Ok (then_finish s (o ++ o2))
        | Restart => Ok (do_restart s)
        | _ => Ok (then_finish s [])
        end
    | Maint =>
        match e with
        | Recv StartM => Ok (do_restart s)
        | Restart => Ok (do_restart s)
        | _ => Ok (s, [])
        end
    end
  end.
Fixpoint run (qmax : Z) (s : stn) (l : list event) : res (stn * list out) :=
  match l with
  | [] => Ok (s, [])
  | e :: l => let* (s, o1) := step qmax s e in let* (s, o2) := run qmax s l in Ok (s, o1 ++ o2)
  end.
