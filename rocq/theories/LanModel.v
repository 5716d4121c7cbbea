(** Ethernet and GRE framing: ethernet.py 23-182, gre.py 18-190, datalink.py
    BcPort/BcDatalink. *)
From Verif Require Import Base Dict.

(** Python slice assignment [f[p:p + len (b)] = b] on a bytearray. *)
Definition put (f : list Z) (p : Z) (b : list Z) : list Z := upto p f ++ b ++ from (p + zlen b) f.

(** Keys of the ports dictionary: protocol types (two bytes) or SAP numbers. *)
Inductive pkey := KProto (p : list Z) | KSap (s : Z).
Definition pkey_eqb (a b : pkey) : bool :=
  match a, b with
  | KProto x, KProto y => leqb x y
  | KSap x, KSap y => x =? y
  | _, _ => false
  end.
(** A port (datalink.py BcPort): its current MAC address, multicast set,
    promiscuous flag, padding flag, primary protocol type, transmit frame
    buffer; [owner] stands for the upper layer object. *)
Record port := { mac : list Z; multicast : list (list Z); promisc : bool; pad : bool;
                 proto : list Z; owner : Z; frame : list Z }.

(** EthPort.__init__ (ethernet.py:30-44).  The base class is called with the
    protocol only, so without one its assertion fails. *)
Definition eth_port (m : list Z) (pr : option (list Z)) (sap : option Z) (pd : bool) (own : Z) : res port :=
  match pr with
  | Some p => Ok {| mac := m; multicast := []; promisc := false; pad := pd; proto := p; owner := own;
                    frame := put (repeat 0 1514) 12 p |}
  | None => Err EAssert
  end.
Definition plstart (p : port) : Z := if pad p then 16 else 14.
Definition fill : list Z := repeat 66 60.

(** EthPort.send (46-83).  The result is the port with its modified buffer and
    the frame sent.  Protocol type ports only; a port without one cannot be
    created. *)
Definition eth_send (p : port) (msg dest : list Z) : res (port * list Z) :=
  if negb (zlen dest =? 6) then Err EValue
  else
    let l := zlen msg in
    let f := put (put (frame p) 0 dest) 6 (mac p) in
    let* f := (if pad p then
                 if 1498 <? l then Err EValue
                 else Ok (put f 14 [Z.land l 255; Z.shiftr l 8])
               else if 1500 <? l then Err EValue else Ok f) in
    let f := put f (plstart p) msg in
    let l := l + plstart p in
    let f := if l <? 60 then put f l (upto (60 - l) (from l fill)) else f in
    let l := Z.max l 60 in
    Ok ({| mac := mac p; multicast := multicast p; promisc := promisc p; pad := pad p; proto := proto p;
           owner := owner p; frame := f |}, upto l f).

(** Python comparison of byte strings. *)
Fixpoint bytes_le (a b : list Z) : bool :=
  match a, b with
  | [], _ => true
  | _ :: _, [] => false
  | x :: a', y :: b' => if x <? y then true else if y <? x then false else bytes_le a' b'
  end.
Definition at_ (l : list Z) (i : Z) : res Z :=
  match nth_error l (Z.to_nat i) with Some v => Ok v | None => Err EIndex end.
(** Work item passed to the owner. *)
Record received := { r_owner : Z; r_src : list Z; r_packet : list Z; r_pdu : list Z }.
Definition accepts (p : port) (dest : list Z) : bool :=
  leqb dest (mac p) || promisc p || existsb (leqb dest) (multicast p).
(** _Ethernet.receive (116-172), counters omitted.  [plen] is the length passed
    by the lower layer. *)
Definition eth_receive (ports : dict pkey port) (plen : Z) (packet : list Z) : res (option received) :=
  match packet with
  | [] => Ok None
  | _ =>
      let pr := upto 2 (from 12 packet) in
      let* sel :=
        (if bytes_le pr [5; 220] then
           let* dsap := at_ packet 14 in
           match dget pkey_eqb ports (KSap dsap) with
           | Some p => Ok (Some (p, le_dec (rev pr), 17))
           | None => Ok None
           end
         else
           match dget pkey_eqb ports (KProto pr) with
           | Some p => Ok (Some (p, plen - 14, 14))
           | None => Ok None
           end) in
      match sel with
      | None => Ok None
      | Some (p, plen2, pstart) =>
          let dest := upto 6 packet in
          let src := upto 6 (from 6 packet) in
          if negb (zlen src =? 6) then Err EValue
          else if negb (Z.land (nth 0 src 0) 1 =? 0) then Ok None
          else if accepts p dest then
            if pad p then
              let* b14 := at_ packet 14 in
              let* b15 := at_ packet 15 in
              let plen2 := b14 + Z.shiftl b15 8 in
              if plen <? plen2 + 16 then Ok None
              else Ok (Some {| r_owner := owner p; r_src := src; r_packet := upto plen2 (from 16 packet); r_pdu := packet |})
            else Ok (Some {| r_owner := owner p; r_src := src; r_packet := upto plen2 (from pstart packet); r_pdu := packet |})
          else Ok None
      end
  end.

(** *** GRE *)
(** GREPort.__init__ (gre.py:21-26). *)
Definition gre_port (pr : list Z) (pd : bool) (own : Z) : port :=
  {| mac := []; multicast := []; promisc := false; pad := pd; proto := pr; owner := own;
     frame := put (put (repeat 0 1504) 0 [0; 0]) 2 pr |}.
(** GREPort.send (31-56); the destination is ignored. *)
Definition gre_send (p : port) (msg : list Z) : res (port * list Z) :=
  let l := zlen msg in
  let* (f, l) :=
    (if pad p then
       if 1498 <? l then Err EValue
       else Ok (put (put (frame p) 4 [Z.land l 255; Z.shiftr l 8]) 6 msg, l + 6)
     else if 1500 <? l then Err EValue else Ok (put (frame p) 4 msg, l + 4)) in
  Ok ({| mac := mac p; multicast := multicast p; promisc := promisc p; pad := pad p; proto := proto p;
         owner := owner p; frame := f |}, upto l f).
(** One iteration of the receive loop GRE.run (138-190) after recvfrom: the
    datagram as it arrives; recvfrom (1504) truncates it.  [valid] is the
    outcome of the sender address check, [skip] is skipIpHdr. *)
Definition gre_receive (ports : dict pkey port) (skip valid : bool) (datagram : list Z) : res (option received) :=
  let msg := upto 1504 datagram in
  if zlen msg <=? 4 then Ok None
  else if negb valid then Ok None
  else
    let* poso := (if skip then let* b0 := at_ msg 0 in
                               if b0 / 16 =? 4 then Ok (Some (4 * (b0 mod 16))) else Ok None
                  else Ok (Some 0)) in
    match poso with
    | None => Ok None
    | Some pos =>
        if negb (leqb (upto 2 (from pos msg)) [0; 0]) then Ok None
        else
          let pr := upto 2 (from (pos + 2) msg) in
          match dget pkey_eqb ports (KProto pr) with
          | None => Ok None
          | Some p =>
              let plen := zlen msg - (pos + 4) in
              if pad p then
                let* b4 := at_ msg (pos + 4) in
                let* b5 := at_ msg (pos + 5) in
                let plen2 := b4 + Z.shiftl b5 8 in
                if plen <? plen2 then Ok None
                else Ok (Some {| r_owner := owner p; r_src := []; r_packet := upto plen2 (from (pos + 6) msg); r_pdu := [] |})
              else Ok (Some {| r_owner := owner p; r_src := []; r_packet := from (pos + 4) msg; r_pdu := [] |})
          end
    end.
