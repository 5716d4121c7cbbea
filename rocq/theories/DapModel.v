(** Model of DAP message blocking: decnet/dap_packets.py:194-290 and the
    session wrapper decnet/dap.py:21-169.

    A message is its type, the optional stream id and bit count of the header,
    and the encoded remaining fields (the body).  Simplifications: the fields
    behind the header are not decoded here, the body bytes are what the rows
    of the message's own layout are given; [conn.data] and [conn.recv] of the
    connection (connectors.py) are an output list and an input list, the
    debugging output is left out. *)
From Verif Require Import Base PacketModel.

Record dmsg := { dm_type : Z; dm_sid : option Z; dm_bitcnt : option Z; dm_body : list Z }.

(** The classes indexed by type, dap_packets.py:292-870. *)
Definition dap_types : list Z := [1; 2; 3; 4; 5; 6; 7; 8; 9; 13; 14; 15].
Definition known_type (t : Z) : bool := existsb (Z.eqb t) dap_types.

(** The length field of the header, dap_packets.py:277-284: none, LENGTH, or
    LENGTH and LEN256. *)
Inductive dlen := L0 | L1 (l : Z) | L2 (lo hi : Z).

Definition bit (b : bool) (n : Z) : Z := if b then Z.shiftl 1 n else 0.
Definition isSome {A} (o : option A) : bool := match o with Some _ => true | None => false end.
(** The flags byte, dap_packets.py:275-281; [m_syspec] and [m_seg] are class
    constants 0 (287-288).  All bits are below 7, so EX-5 is one byte. *)
Definition dflags (m : dmsg) (l : dlen) : Z :=
  Z.lor (bit (isSome (dm_sid m)) 0)
   (Z.lor (bit (match l with L0 => false | _ => true end) 1)
     (Z.lor (bit (match l with L2 _ _ => true | _ => false end) 2) (bit (isSome (dm_bitcnt m)) 3))).

Definition opt_b (o : option Z) : res (list Z) :=
  match o with Some v => to_bytes 1 v | None => Ok [] end.
(** Packet.encode of a DapHeader subclass. *)
Definition dap_encode (m : dmsg) (l : dlen) : res (list Z) :=
  let* t := to_bytes 1 (dm_type m) in
  let* f := ex_enc 5 (dflags m l) in
  let* s := opt_b (dm_sid m) in
  let* ln := match l with
             | L0 => Ok []
             | L1 a => to_bytes 1 a
             | L2 a b => let* x := to_bytes 1 a in let* y := to_bytes 1 b in Ok (x ++ y)
             end in
  let* b := opt_b (dm_bitcnt m) in
  Ok (t ++ f ++ s ++ ln ++ b ++ dm_body m).

(** DapBase.decode up to [decoded_from], dap_packets.py:211-236: the bytes of
    the first message and what follows it. *)
Definition dap_split (buf : list Z) : res (list Z * list Z) :=
  if 1 <? zlen buf then
    let flags := nth 1 buf 0 in
    if flags =? 0 then Ok (buf, [])
    else
      let* n := (if flags =? 2 then let* _ := require buf 3 in Ok (nth 2 buf 0 + 3)
                 else if flags =? 6 then let* _ := require buf 4 in Ok (nth 2 buf 0 + Z.shiftl (nth 3 buf 0) 8 + 4)
                 else Ok (zlen buf)) in
      if zlen (upto n buf) =? n then Ok (upto n buf, from n buf) else Err EAssert
  else Ok (buf, []).

(** One byte header field present if the flag is; a message that ends early is
    continued with zeros (DAPDEFAULT, 238-243). *)
Definition opt_dec (present : bool) (buf : list Z) : option Z * list Z :=
  if present then match buf with [] => (Some 0, []) | b :: t => (Some b, t) end else (None, buf).
(** The header rows, dap_packets.py:239-243, 273-288.  The class constants
    m_syspec and m_seg refuse a set bit (WrongValue). *)
Definition dap_header (buf : list Z) : res dmsg :=
  match buf with
  | [] => Err EDecode
  | t :: r =>
      let* (f, r) := match r with [] => Ok (0, []) | _ => ex_dec 5 r end in
      if Z.testbit f 5 || Z.testbit f 6 then Err EDecode
      else
        let (sid, r) := opt_dec (Z.testbit f 0) r in
        let (_, r) := opt_dec (Z.testbit f 1) r in
        let (_, r) := opt_dec (Z.testbit f 2) r in
        let (bc, r) := opt_dec (Z.testbit f 3) r in
        Ok {| dm_type := t; dm_sid := sid; dm_bitcnt := bc; dm_body := r |}
  end.

(** DapBase.decode, dap_packets.py:199-248; findclassb needs the type byte
    (packet.py:213-215) and a class for it (741-742). *)
Definition dap_decode (buf : list Z) : res (dmsg * list Z) :=
  match buf with
  | [] => Err EDecode
  | t :: _ =>
      if known_type t then
        let* (b, rest) := dap_split buf in
        let* m := dap_header b in
        Ok (m, rest)
      else Err EDecode
  end.

(** * The session, dap.py *)
(** Negotiated: [bufsiz] (69), the peer's blocking and len2 flags. *)
Record dcfg := { d_bufsiz : Z; d_blocking : bool; d_len2 : bool }.
Record dsess := { d_tx : list (list Z); d_txlen : Z; d_rx : list Z }.
Definition sess0 : dsess := {| d_tx := []; d_txlen := 0; d_rx := [] |}.
Definition with_tx (s : dsess) (t : list (list Z)) (n : Z) : dsess := {| d_tx := t; d_txlen := n; d_rx := d_rx s |}.
Definition with_rx (s : dsess) (r : list Z) : dsess := {| d_tx := d_tx s; d_txlen := d_txlen s; d_rx := r |}.

(** flush, dap.py:103-109.  The second result lists the [conn.data] calls. *)
Definition dap_flush (s : dsess) : dsess * list (list Z) :=
  match d_tx s with
  | [] => (s, [])
  | _ => (with_tx s [] 0, [concat (d_tx s)])
  end.

(** send, dap.py:111-161. *)
Definition dap_send (c : dcfg) (s : dsess) (m : dmsg) : res (dsess * list (list Z)) :=
  let* msgb := dap_encode m L0 in
  let mlen := zlen msgb in
  if d_bufsiz c <? mlen then Err EAssert
  else if negb (d_blocking c) then Ok (s, [msgb])
  else
    let (s, o) := if d_bufsiz c <? d_txlen s + mlen then dap_flush s else (s, []) in
    if (254 <? mlen) && negb (d_len2 c) then
      let (s, o2) := dap_flush (with_tx s (d_tx s ++ [msgb]) (d_txlen s)) in Ok (s, o ++ o2)
    else
      let (l, mlen) := if mlen <? 255 then (L1 (mlen + 1 - 3), mlen + 1)
                       else let lenf := mlen + 2 - 4 in (L2 (Z.land lenf 255) (Z.shiftr lenf 8), mlen + 2) in
      let* b := dap_encode m l in
      Ok (with_tx s (d_tx s ++ [b]) (d_txlen s + mlen), o).

(** What the connection delivers: a data message or something else (interrupt,
    disconnect, an exception). *)
Inductive dinput := IData (b : list Z) | IOther.
Inductive drecv :=
| RMsg (m : dmsg)       (* a message *)
| RNone                 (* end of the session *)
| RWait.                (* no input left: still waiting *)

(** recv, dap.py:76-101.  The configuration message sent in reply to a stray
    Config is [myc].  [if not self.rxdata] asks for input again when the
    buffer is used up; an empty data message does not decode.  Fuel: each
    Config that is answered uses up two bytes or an input. *)
Fixpoint dap_recv (fuel : nat) (myc : list Z) (s : dsess) (inp : list dinput)
  : res (drecv * dsess * list dinput * list (list Z)) :=
  let next :=
    match d_rx s, inp with
    | [], [] => Ok None
    | [], IOther :: t => Ok (Some (None, t))
    | [], IData b :: t => let* x := dap_decode b in Ok (Some (Some x, t))
    | r, t => let* x := dap_decode r in Ok (Some (Some x, t))
    end in
  let* n := next in
  match n with
  | None => Ok (RWait, s, inp, [])
  | Some (None, t) => Ok (RNone, with_rx s [], t, [])
  | Some (Some (m, rest), t) =>
      let s := with_rx s rest in
      if dm_type m =? 1 then
        match fuel with
        | O => Err EDiverge
        | S f =>
            let (s, o) := dap_flush s in
            let* (q, o2) := dap_recv f myc s t in
            Ok (q, o ++ [myc] ++ o2)
        end
      else Ok (RMsg m, s, t, [])
  end.
