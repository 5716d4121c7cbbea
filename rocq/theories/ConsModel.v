(** The console server's reservation: /repo/pydecnet/decnet/mop.py,
    MopCircuit.dispatch (619-670), CarrierServer (1115-1204), SysIdHandler
    (725-767: the answer to a RequestId), config.py:208-213.

    Station addresses are byte strings.  The reservation timer runs in whole
    seconds and expires exactly when due (timers.py: C03-C05).  Starting the
    login process is an oracle: it works (its terminal has a file number other
    than 0) or raises an exception; the child process is left out.  The data
    phase is [s_command] of CarrierModel.  Messages that neither reserve, use or
    release the console nor ask for the system id are left out, as are the other
    fields of the system id. *)
From Verif Require Import Base CarrierModel.

(** The messages, by the layouts of mop.py 208-211 and 253-265 (packet.py: a
    message that is too short or too long raises DecodeError, which is caught at
    633-635, and an unknown code KeyError, 629-632). *)
Inductive consmsg := MRequest (ver : list Z) | MRelease | MCommand (seq : Z) (payload : list Z) | MRequestId (receipt : Z).
Definition cons_parse (buf : list Z) : option consmsg :=
  match buf with
  | [] => None
  | code :: t =>
    if code =? 13 then if zlen t =? 8 then Some (MRequest t) else None
    else if code =? 15 then match t with [] => Some MRelease | _ => None end
    else if code =? 17 then match t with f :: p => Some (MCommand (f mod 2) p) | [] => None end
    else if code =? 5 then match t with [_; a; b] => Some (MRequestId (a + 256 * b)) | _ => None end
    else None
  end.

(** CarrierServer: remote, the data phase, whether there is a terminal, when
    the timer expires. *)
Record cserv := { c_user : list Z; c_srv : server; c_pty : bool; c_due : option Z }.
Record cons := { c_now : Z; c_cur : option cserv }.
Inductive cout :=
  | COpen (u : list Z)              (* login started for station u *)
  | CClose (u : list Z)             (* its terminal closed *)
  | CTerm (d : list Z)              (* input taken by the terminal *)
  | CLost (d : list Z)              (* input dropped because the write failed *)
  | CShow (d : list Z)              (* terminal output taken into a response *)
  | CResp (dst : list Z) (f : frame)
  | CSysId (dst : list Z) (receipt : Z) (carrier : bool) (user : option (list Z)).
Inductive cev :=
  | CPkt (src buf : list Z) (fork : bool) (w : option Z) (r : option (list Z))
  | CTick.                          (* one second *)
Definition reservation_timer : Z := 15.

(** __init__ 1121-1149.  When forkpty fails, [release] stops the timer and
    clears parent.carrier_server, but then the caller (658) stores the object
    there. *)
Definition copen (now : Z) (src : list Z) (fork : bool) : cserv * list cout :=
  if fork then ({| c_user := src; c_srv := server0; c_pty := true; c_due := Some (now + reservation_timer) |}, [COpen src])
  else ({| c_user := src; c_srv := server0; c_pty := false; c_due := None |}, []).
(** release 1151-1160. *)
Definition crelease (s : cserv) : list cout := if c_pty s then [CClose (c_user s)] else [].
Definition lift (u : list Z) (o : kout) : cout :=
  match o with OWrite d => CTerm d | OLost d => CLost d | ORead d => CShow d | _ => CClose u end.
(** dispatch 1168-1204 of a packet; without a terminal pendingoutput is None
    (1130), and len (None) at 1194 is a TypeError. *)
Definition cserve (now : Z) (s : cserv) (src : list Z) (m : consmsg) (w : option Z) (r : option (list Z)) : res (option cserv * list cout) :=
  if negb (leqb src (c_user s)) then Ok (Some s, [])
  else match m with
       | MRelease => Ok (None, crelease s)
       | MCommand q p =>
         if negb (c_pty s) && negb (q =? sseq (c_srv s)) then Err EType
         else let '(v, fs, o) := s_command (c_srv s) (q, p) w r in
              Ok (Some {| c_user := c_user s; c_srv := v; c_pty := c_pty s; c_due := Some (now + reservation_timer) |},
                  map (lift (c_user s)) o ++ map (CResp (c_user s)) fs)
       | _ => Ok (Some s, [])
       end.
(** MopCircuit.dispatch. *)
Definition cpkt (ver : option (list Z)) (now : Z) (cur : option cserv) (src buf : list Z) (fork : bool) (w : option Z) (r : option (list Z)) : res (option cserv * list cout) :=
  match cons_parse buf with
  | None => Ok (cur, [])
  | Some (MRequest v) =>
    match ver, cur with
    | Some pw, None => if leqb pw v then let '(s, o) := copen now src fork in Ok (Some s, o) else Ok (cur, [])
    | _, _ => Ok (cur, [])
    end
  | Some m =>
    let* (cur1, o1) := match cur with Some s => cserve now s src m w r | None => Ok (None, []) end in
    Ok (cur1, o1 ++ match m with
                    | MRequestId rc => [match ver with Some _ => CSysId src rc true (option_map c_user cur1) | None => CSysId src rc false None end]
                    | _ => []
                    end)
  end.
(** A second passes; the Timeout, 1163-1167. *)
Definition ctick (st : cons) : cons * list cout :=
  let now := c_now st + 1 in
  match c_cur st with
  | Some s => match c_due s with
              | Some d => if d <=? now then ({| c_now := now; c_cur := None |}, crelease s) else ({| c_now := now; c_cur := c_cur st |}, [])
              | None => ({| c_now := now; c_cur := c_cur st |}, [])
              end
  | None => ({| c_now := now; c_cur := None |}, [])
  end.
Definition cstep (ver : option (list Z)) (st : cons) (e : cev) : res (cons * list cout) :=
  match e with
  | CPkt src buf fork w r => let* (cur, o) := cpkt ver (c_now st) (c_cur st) src buf fork w r in Ok ({| c_now := c_now st; c_cur := cur |}, o)
  | CTick => Ok (ctick st)
  end.
Fixpoint crun (ver : option (list Z)) (st : cons) (h : list cev) : res (cons * list cout) :=
  match h with
  | [] => Ok (st, [])
  | e :: t => let* (st1, o1) := cstep ver st e in let* (st2, o2) := crun ver st1 t in Ok (st2, o1 ++ o2)
  end.
Definition cinit : cons := {| c_now := 0; c_cur := None |}.
