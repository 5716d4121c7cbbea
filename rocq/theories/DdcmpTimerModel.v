(** The timer of a DDCMP station: ddcmp.py 404-405, 428-444, 532-555, 569, 639,
    737-757, 783-790, 819, 879, with Backoff (common.py 865-892) and the timer
    wheel (timers.py 145-190).  The protocol itself is in DdcmpModel.v.

    Simplifications: time is in whole seconds; the jitter of jstart (up to 10%
    less, timers.py 166-172) is left out; a Timeout is handled at the moment the
    timer expires.  The timer of the states summed up as Off is the one of
    datalink.py and is left out. *)
From Verif Require Import Base AddrModel DdcmpModel.

(** [due]: seconds until the timer expires; the two Backoff objects. *)
Record timer := { due : option Z; acktmr : backoff; stacktmr : backoff }.
(** What is done with the timer: stop, start with the next value of acktmr or
    stacktmr, reset one of these. *)
Inductive top := TStop | TAck | TStack | TAckReset | TStackReset.
Definition tdo (t : timer) (x : top) : timer :=
  match x with
  | TStop => {| due := None; acktmr := acktmr t; stacktmr := stacktmr t |}
  | TAck => let (b, v) := backoff_next (acktmr t) in {| due := Some v; acktmr := b; stacktmr := stacktmr t |}
  | TStack => let (b, v) := backoff_next (stacktmr t) in {| due := Some v; acktmr := acktmr t; stacktmr := b |}
  | TAckReset => {| due := due t; acktmr := backoff_reset (acktmr t); stacktmr := stacktmr t |}
  | TStackReset => {| due := due t; acktmr := acktmr t; stacktmr := backoff_reset (stacktmr t) |}
  end.
(** sendmsg (532-555), as called by send_start, send_stack, send_ack, send_nak,
    send_rep, retransmit and send (737-757, 819, 879). *)
Definition tx_top (m : msg) : list top :=
  match m with
  | StartM | StackM => [TStack]
  | RepM _ | DataM _ _ _ => [TAck]
  | _ => []
  end.
Fixpoint txtops (o : list out) : list top :=
  match o with [] => [] | Tx m :: o => tx_top m ++ txtops o | _ :: o => txtops o end.
(** What process_ack does before it sends anything (783-790). *)
Definition ack_tops (s : stn) (resp : Z) : list top :=
  let count := ssub resp (a s) in
  let pend := ssub (n s) (a s) in
  if pend <? count then []
  else match ack_loop (Z.to_nat count) s with
       | Ok s => if negb (a s =? n s) then [TAck] else [TStop; TAckReset]
       | Err _ => []
       end.
(** connected (434-442): init_state stops the timer (429). *)
Definition conn_tops : list top := [TStop; TAckReset; TStackReset].
(** What an event does with the timer before anything is sent. *)
Definition pre_tops (s : stn) (e : event) : list top :=
  match e with
  | Send _ | Lost => []
  | _ =>
    match st s with
    | Off => match e with Connected => conn_tops | _ => [] end
    | Istart =>
        match e with
        | Recv StartM => [TStackReset]              (* 569 *)
        | Recv StackM => [TStop]                    (* 639 *)
        | Recv (MaintM _) => [TStop]                (* 429 *)
        | _ => []
        end
    | Astart =>
        match e with
        | Recv StackM => [TStop]
        | Recv (MaintM _) => [TStop]
        | Recv (AckM resp) | Recv (DataM resp _ _) =>
            if resp =? 0 then TStop :: ack_tops (fst (running_state s false)) resp else []
        | Restart => conn_tops
        | _ => []
        end
    | Running =>
        match e with
        | Recv (DataM resp _ _) | Recv (AckM resp) | Recv (NakM _ resp) => ack_tops s resp
        | Recv (MaintM _) => [TStop]
        | Recv StartM => conn_tops
        | RErr _ (Some resp) => ack_tops s resp
        | Restart => conn_tops
        | _ => []
        end
    | Maint => match e with Recv StartM | Restart => conn_tops | _ => [] end
    end
  end.
Definition timed : Type := stn * timer.
Definition do_event (q : Z) (x : timed) (e : event) : res (timed * list out) :=
  let (s, t) := x in
  let* (s', o) := step q s e in
  Ok (s', fold_left tdo (pre_tops s e ++ txtops o) t, o).
(** An event other than a timeout, or a second goes by (timers.py 174-208:
    when the time is over the timer is off and there is a Timeout). *)
Inductive tev := Ev (e : event) | Second.
Definition tstep (q : Z) (x : timed) (v : tev) : res (timed * list out) :=
  match v with
  | Ev e => do_event q x e
  | Second =>
      let (s, t) := x in
      match due t with
      | None => Ok (x, [])
      | Some k => if 1 <? k then Ok (s, {| due := Some (k - 1); acktmr := acktmr t; stacktmr := stacktmr t |}, [])
                  else do_event q (s, tdo t TStop) Timeout
      end
  end.
Fixpoint trun (q : Z) (x : timed) (l : list tev) : res (timed * list out) :=
  match l with
  | [] => Ok (x, [])
  | v :: l => let* (x, o1) := tstep q x v in let* (x, o2) := trun q x l in Ok (x, o1 ++ o2)
  end.
(** The beginning (404-405; 978-979 and 1441-1442 have other values). *)
Definition timer0 (ab sb : backoff) : timer := {| due := None; acktmr := ab; stacktmr := sb |}.
