(** The MOP loop protocol: /repo/pydecnet/decnet/mop.py, LoopSkip, LoopFwd and
    LoopReply (275-289), LoopConnection.start and buildloop (1238-1299),
    LoopHandler.dispatch (1313-1335).

    The three packets are written out with the field codecs of packet.py (B:
    le_enc with the OverflowError of to_bytes, Payload: the rest of the buffer)
    and common.py:432-436 (Macaddr: 6 bytes).  Hex and name parsing of the
    addresses in an API request and the timeout and packet counts (MopModel) are
    left out. *)
From Verif Require Import Base.

(** LoopReply.encode 285-289, LoopFwd.encode 279-283, LoopSkip.encode 275-277;
    skip is 0 when it was never set (packet.py:168-173). *)
Definition enc_reply (receipt : Z) (payload : list Z) : res (list Z) :=
  let* r := to_bytes 2 receipt in Ok (le_enc 2 1 ++ r ++ payload).
Definition enc_fwd (dest payload : list Z) : list Z := le_enc 2 2 ++ dest ++ payload.
Definition enc_skip (skip : Z) (payload : list Z) : res (list Z) :=
  let* s := to_bytes 2 skip in Ok (s ++ payload).
(** buildloop 1291-1299: [destlist] is in the order of the hops. *)
Definition buildloop (receipt : Z) (destlist : list (list Z)) (payload : list Z) : res (list Z) :=
  let* ret := enc_reply receipt payload in
  enc_skip 0 (fold_left (fun ret dest => enc_fwd dest ret) (rev destlist) ret).

(** start 1238-1276, from the list of addresses on: the status of a refused
    request, or the first hop and the message. *)
Definition LOOPMC : list Z := [207; 0; 0; 0; 0; 0].
Definition ismulti (d : list Z) : bool := match d with b :: _ => Z.odd b | [] => false end.
Inductive lstart := BadAddress | TooMany | TooLong (limit : Z) | Go (firsthop msg : list Z).
Definition loop_start (own : list Z) (dests : list (list Z)) (receipt : Z) (payload : list Z) : res lstart :=
  let dest := match dests with [] => [LOOPMC] | _ => dests end in
  let multidest := match dest with [d] => leqb d LOOPMC | _ => false end in
  if negb multidest && existsb ismulti dest then Ok BadAddress
  else if 3 <? zlen dest then Ok TooMany
  else match dest ++ [own] with
       | [] => Err EValue
       | first :: destlist =>
         let* m := buildloop receipt destlist payload in
         if 1500 <? zlen m then Ok (TooLong (1500 - 8 - 10)) else Ok (Go first m)
       end.

(** LoopHandler.dispatch 1313-1335 of a received buffer: nothing, a message to
    send, or a LoopReply for MopCircuit.deliver. *)
Inductive lact := LIgnore | LSend (msg dest : list Z) | LDeliver (receipt : Z) (payload : list Z).
Definition loop_handle (buf : list Z) : res lact :=
  let* _ := require buf 2 in
  let skip := le_dec (upto 2 buf) in
  let payload := from 2 buf in
  if Z.odd skip || (zlen buf - 4 <? skip) then Ok LIgnore
  else
    let fun_ := le_dec (upto 2 (from (skip + 2) buf)) in
    if fun_ =? 2 then
      let b := from 2 (from (skip + 2) buf) in
      let* _ := require b 6 in
      let dest := upto 6 b in
      if ismulti dest then Ok LIgnore
      else let* m := enc_skip (skip + 8) payload in Ok (LSend m dest)
    else if fun_ =? 1 then
      let b := from 2 (from (skip + 2) buf) in
      let* _ := require b 2 in
      Ok (LDeliver (le_dec (upto 2 b)) (from 2 b))
    else Ok LIgnore.

(** Stations with this handler on a LAN that hands every frame to the station
    it is addressed to, after appending some padding (the Ethernet minimum
    length): the stations visited and what the last one hands on. *)
Fixpoint journey (pads : list (list Z)) (at_ buf : list Z) : list (list Z) * option (Z * list Z) :=
  match pads with
  | [] => ([], None)
  | pad :: t =>
    match loop_handle (buf ++ pad) with
    | Ok (LSend m d) => let '(v, r) := journey t d m in (at_ :: v, r)
    | Ok (LDeliver r p) => ([at_], Some (r, p))
    | Ok LIgnore => ([at_], None)
    | Err _ => ([at_], None)
    end
  end.
