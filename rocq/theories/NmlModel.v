(** The network management listener: /repo/pydecnet/decnet/modules/nml.py, and
    the loopback mirror, modules/mirror.py.

    A work item is a request on the management connection, already decoded
    (nicepackets.py is not modelled: decoding gives a request, a DecodeError or
    another exception), something that happens on a connection to a mirror, or
    the result of a circuit loop from MOP.  What node.nice_read returns is part
    of the request: an error code or the records of the entities, as sorted by
    [resp.sorted].  Replies are modelled by their return code, detail and
    content, not by their bytes.  Left out: reply messages in words, tracing,
    requests after the management connection has closed. *)
From Verif Require Import Base.

(** * Replies *)
Inductive nreply :=
  | NCode (rc detail : Z)                  (* NiceReply *)
  | NItem (rc : Z) (p : list Z)            (* the record of an entity *)
  | NLoopOk (from : option (list Z))       (* NiceLoopReply *)
  | NLoopErr (rc detail notlooped : Z)     (* NiceLoopErrorReply *)
  | NP2Code (rc : Z) | NP2Head (count : Z) | NP2Item (p : list Z).
Definition rc_of (r : nreply) : Z :=
  match r with NCode c _ | NItem c _ | NLoopErr c _ _ | NP2Code c => c | NLoopOk _ => 1 | NP2Head _ => 1 | NP2Item _ => 0 end.

(** * Read requests *)
(** An item of the reply dictionary: a record, or a list of records (MOP
    configurator). *)
Inductive entity := EOne (p : list Z) | EMany (l : list (list Z)).
(** node.nice_read: a code, or whether the dictionary is empty and what it
    shows. *)
Inductive answer := ACode (c : Z) | ADict (empty : bool) (l : list entity).

Definition group (e : entity) : list nreply :=
  match e with
  | EOne p => [NItem 1 p]
  | EMany [] => []
  | EMany l => map (NItem 3) (removelast l) ++ [NItem 1 (last l [])]
  end.
(** dispatch 149-173, 181-210 for Phase III and IV; [resp = 0] is not an error code the
    layers return. *)
Definition read_reply (mult : bool) (a : answer) : list nreply :=
  let a := match a with
           | ADict true _ => if mult then a else ACode (-8)
           | ACode 0 => if mult then a else ACode (-8)
           | _ => a
           end in
  match a with
  | ACode c => [NCode c 0xffff]
  | ADict _ [EOne p] => [NItem 1 p]
  | ADict _ [EMany [p]] => [NItem 1 p]
  | ADict _ l => NCode 2 0 :: flat_map group l ++ [NCode (-128) 0]
  end.
(** 165-166, 174-180 for Phase II.  Phase II requests have no [mult], so that
    an empty answer is an AttributeError at 157; no Phase II record is a
    list. *)
Definition p2_reply (a : answer) : res (list nreply) :=
  match a with
  | ACode 0 => Err EAttr
  | ACode c => Ok [NP2Code c]
  | ADict true _ => Err EAttr
  | ADict false l => Ok (NP2Head (zlen l) :: map (fun e => match e with EOne p => NP2Item p | EMany _ => NP2Item [] end) l)
  end.

(** * Loop requests *)
Record loopargs := { a_with : option Z; a_len : option Z; a_count : option Z }.
Definition dflt (o : option Z) (d : Z) : Z := match o with Some v => v | None => d end.
Definition fill (w : Z) : Z := if w =? 0 then 0 else if w =? 1 then 0xff else 0x55.
(** 253-266 and 402-413: the last check that fails counts. *)
Definition badarg (bad : option Z) (w l maxl count : Z) : option Z :=
  let bad := if (0 <=? w) && (w <=? 2) then bad else Some 152 in
  let bad := if (l <? 1) || (maxl <? l) then Some 151 else bad in
  if count <? 1 then Some 150 else bad.

(** Circuit loop: parameters by physical address or by node name ([Some None]:
    a name that is not in the node database). *)
Record circargs := { c_base : loopargs; c_pa : option (list Z); c_node : option (option (list Z)); c_help : option Z; c_apa : option (list Z); c_anode : option (option (list Z)) }.
(** What MOP's loop handler returns. *)
Inductive mopret := MStarted | MTooLong (limit : Z) | MFailed.
Definition multi (m : list Z) : bool := match m with b :: _ => Z.odd b | [] => false end.
(** 374-380 and 386-399. *)
Definition resolve (pa : option (list Z)) (nd : option (option (list Z))) : res (option (list Z)) :=
  match pa with
  | Some m => Ok (Some m)
  | None => match nd with None => Ok None | Some None => Err EKey | Some (Some m) => Ok (Some m) end
  end.

Inductive request :=
  | QBad                                                      (* DecodeError *)
  | QExc (e : exn)                                            (* any other exception *)
  | QRead (permanent mult : bool) (a : answer)
  | QP2Read (a : answer)
  | QLoopNode (known : bool) (a : loopargs)
  | QLoopCirc (circuit : bool) (a : circargs) (ret : mopret)
  | QLoopOther
  | QZero
  | QOther.
Inductive nev :=
  | NReq (q : request)
  | NData (conn : Z) (msg : list Z) (q : request)   (* q: msg decoded as a request *)
  | NAccept (conn : Z) (msg : list Z)
  | NReject (conn reason : Z)
  | NClosed (conn : Z)              (* disconnect or interrupt *)
  | NMopDone (r : Z + list Z).
Inductive nout :=
  | Reply (r : nreply)
  | Connect (conn : Z)
  | Send (conn : Z) (d : list Z)
  | Disconnect (conn : Z)
  | Abort (conn : Z)
  | MopLoop (dest : list (list Z)) (count : Z) (payload : list Z).

(** The application.  [n_next] numbers the connections it makes. *)
Record nml := { n_ph2 : bool; n_loop : option Z; n_next : Z; n_count : Z; n_data : list Z }.
Definition set_count (s : nml) (c : Z) : nml := {| n_ph2 := n_ph2 s; n_loop := n_loop s; n_next := n_next s; n_count := c; n_data := n_data s |}.
Definition set_loop (s : nml) (l : option Z) : nml := {| n_ph2 := n_ph2 s; n_loop := l; n_next := n_next s; n_count := n_count s; n_data := n_data s |}.

(** ses2mirror, 25-34, by the codes of session.py 40-56. *)
Definition mirror_detail (reason : Z) : Z :=
  if reason =? 0 then 5 else if reason =? 4 then 7 else if reason =? 5 then 6
  else if (reason =? 34) || (reason =? 36) || (reason =? 43) then 8
  else if reason =? 38 then 12 else if reason =? 39 then 3 else 0.

(** loop_request 249-287, a loop node request. *)
Definition loop_node (s : nml) (known : bool) (a : loopargs) : nml * list nout :=
  let w := dflt (a_with a) 2 in
  let l := dflt (a_len a) 128 in
  let c := dflt (a_count a) 1 in
  let s := set_count s c in
  match badarg None w l 65535 c with
  | Some b => (s, [Reply (NLoopErr (-16) b c)])
  | None =>
    let s := {| n_ph2 := n_ph2 s; n_loop := n_loop s; n_next := n_next s; n_count := c; n_data := repeat (fill w) (Z.to_nat l) |} in
    if known then ({| n_ph2 := n_ph2 s; n_loop := Some (n_next s); n_next := n_next s + 1; n_count := c; n_data := n_data s |}, [Connect (n_next s)])
    else (s, [Reply (NLoopErr (-21) 2 c)])
  end.
(** loop_circuit 355-453. *)
Definition loop_circuit (s : nml) (circuit : bool) (a : circargs) (ret : mopret) : res (nml * list nout) :=
  if negb circuit then Ok (s, [Reply (NLoopErr (-8) 3 0)])
  else
    let w := dflt (a_with (c_base a)) 2 in
    let l := dflt (a_len (c_base a)) 128 in
    let c := dflt (a_count (c_base a)) 1 in
    let assist := dflt (c_help a) (-1) in
    let s := set_count s c in
    let* to := resolve (c_pa a) (c_node a) in
    let* (helper, bad) :=
      (if assist =? -1 then Ok (None, None)
       else
         let bad := match to with None => Some 10 | Some _ => None end in
         let* helper := resolve (c_apa a) (c_anode a) in
         let bad := match helper with
                    | None => Some 153
                    | Some h => match c_apa a with Some _ => if multi h then Some 153 else bad | None => bad end
                    end in
         Ok (helper, if 2 <? assist then Some 154 else bad)) in
    match badarg bad w l 1490 c with
    | Some b => Ok (s, [Reply (NLoopErr (-16) b c)])
    | None =>
      let hl := match helper with Some h => [h] | None => [] end in
      let tl := match to with Some t => [t] | None => [] end in
      let dest := (if (assist =? 0) || (assist =? 2) then hl else []) ++ tl ++ (if (assist =? 1) || (assist =? 2) then hl else []) in
      Ok (s, MopLoop dest c (repeat (fill w) (Z.to_nat l)) ::
             match ret with
             | MStarted => []
             | MTooLong limit => [Reply (NLoopErr (-16) 151 limit)]
             | MFailed => [Reply (NLoopErr (-25) 0 c)]
             end)
    end.

(** A decoded request, dispatch 93-155 and loop_request 236-248. *)
Definition nml_request (s : nml) (q : request) : res (nml * list nout) :=
  match q with
  | QBad => Ok (s, [Reply (NCode (-1) 0)])
  | QExc e => Err e
  | QRead permanent mult a =>
    if n_ph2 s then Ok (s, [Reply (NCode (-1) 0xffff)])
    else Ok (s, map Reply (read_reply mult (if permanent then ACode (-1) else a)))
  | QP2Read a =>
    if negb (n_ph2 s) then Ok (s, [Reply (NP2Code (-1))])
    else let* l := p2_reply a in Ok (s, map Reply l)
  | QLoopNode known a => if n_ph2 s then Ok (s, [Reply (NCode (-1) 0)]) else Ok (loop_node s known a)
  | QLoopCirc circuit a ret => if n_ph2 s then Ok (s, [Reply (NCode (-1) 0)]) else loop_circuit s circuit a ret
  | QLoopOther => if n_ph2 s then Ok (s, [Reply (NCode (-1) 0)]) else Ok (s, [Reply (NLoopErr (-1) 0 0)])
  | QZero => Ok (s, [Reply (NCode (-3) 0)])
  | QOther => Ok (s, [Reply (NCode (-1) 0)])
  end.
Definition is_loop (s : nml) (conn : Z) : bool := match n_loop s with Some k => k =? conn | None => false end.
(** loop_work 289-353 for the current connection (89-90); what happens on another
    one is taken for the management connection: data is a request (93-95), the
    rest is ignored.  mop_loop_done 455-472. *)
Definition nstep (s : nml) (e : nev) : res (nml * list nout) :=
  match e with
  | NReq q => nml_request s q
  | NData conn msg q =>
    if is_loop s conn then
      match msg with
      | [] => Err EIndex
      | f :: d =>
        if (f =? 1) && leqb d (n_data s) then
          let s := set_count s (n_count s - 1) in
          if n_count s <? 1 then Ok (set_loop s None, [Disconnect conn; Reply (NLoopOk None)])
          else Ok (s, [Send conn (0 :: n_data s)])
        else Ok (set_loop s None, [Abort conn; Reply (NLoopErr (-28) 0 (n_count s))])
      end
    else nml_request s q
  | NAccept conn msg =>
    if is_loop s conn then
      let maxlen := match msg with [] => 0 | [a] => a | a :: b :: _ => a + 256 * b end in
      if maxlen <? zlen (n_data s) + 1 then Ok (set_loop s None, [Abort conn; Reply (NLoopErr (-16) 151 (n_count s))])
      else Ok (s, [Send conn (0 :: n_data s)])
    else Ok (s, [])
  | NReject conn reason =>
    if is_loop s conn then Ok (set_loop s None, [Reply (NLoopErr (-21) (mirror_detail reason) (n_count s))])
    else Ok (s, [])
  | NClosed conn =>
    if is_loop s conn then Ok (set_loop s None, [Abort conn; Reply (NLoopErr (-19) 0 (n_count s))])
    else Ok (s, [])
  | NMopDone r =>
    Ok (s, [Reply (match r with inl n => NLoopErr (-25) 0 n | inr mac => NLoopOk (Some mac) end)])
  end.
Fixpoint nrun (s : nml) (h : list nev) : res (nml * list nout) :=
  match h with
  | [] => Ok (s, [])
  | e :: t => let* (s1, o1) := nstep s e in let* (s2, o2) := nrun s1 t in Ok (s2, o1 ++ o2)
  end.
(** ConnectInit 211-229: a connect message without version is Phase II. *)
Definition nml_init (version : list Z) : nml := {| n_ph2 := match version with [] => true | _ => false end; n_loop := None; n_next := 0; n_count := 0; n_data := [] |}.

(** * Requests from a local NCP, api 49-64 and sendreply 66-84 *)
Record apist := { p_mult : bool; p_replies : list nreply }.
Definition api_reply (p : apist) (r : nreply) : apist * list (list nreply) :=
  if rc_of r =? 2 then ({| p_mult := true; p_replies := p_replies p |}, [])
  else if negb (rc_of r =? -128) then
    let l := p_replies p ++ [r] in
    if p_mult p then ({| p_mult := p_mult p; p_replies := l |}, []) else ({| p_mult := p_mult p; p_replies := l |}, [l])
  else (p, [p_replies p]).
(** The dictionaries sent to the client. *)
Fixpoint api_collect (p : apist) (l : list nreply) : list (list nreply) :=
  match l with [] => [] | r :: t => let '(p1, o) := api_reply p r in o ++ api_collect p1 t end.
Definition api0 : apist := {| p_mult := false; p_replies := [] |}.

(** * The mirror, modules/mirror.py 60-89 *)
Definition mirror_accept : list Z := [255; 255].
Definition mirror_data (msg : list Z) : res (list Z) :=
  match msg with [] => Err EIndex | f :: d => if f =? 0 then Ok (1 :: d) else Ok [255] end.
