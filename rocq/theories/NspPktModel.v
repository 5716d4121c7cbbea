(** NSP messages: /repo/pydecnet/decnet/nsp_packets.py:1-341, with the generic
    encoding of packet.py (BM 264-316, EX 363-393, I 110-135, Packet.__new__
    922-937, encode 1006-1027, decode_data 1048-1062, IndexedPacket 680-760).

    [decode] is NspHdr (buf), the call made by NSP.dispatch (nsp.py:174). *)
From Verif Require Import Base PacketModel.

(** AckNum (42-98): sequence number and qualifier; None if the field is absent. *)
Definition ack := option (Z * Z).
(** The messages.  [d], [s]: dstaddr and srcaddr. *)
Inductive npkt :=
  | NData (d s : Z) (a1 a2 : ack) (seg dly bom eom : Z) (pl : list Z)       (* DataSeg 213-221 *)
  | NInt (d s : Z) (a1 a2 : ack) (seg : Z) (pl : list Z)                    (* IntMsg 223-232 *)
  | NLs (d s : Z) (a1 a2 : ack) (seg fcmod fcint fcval : Z)                 (* LinkSvcMsg 235-261 *)
  | NAckData (d s : Z) (a1 a2 : ack)                                        (* 178-187 *)
  | NAckOther (d s : Z) (a1 a2 : ack)                                       (* 189-193 *)
  | NAckConn (d : Z)                                                        (* 195-208 *)
  | NCI (rci : bool) (s fcopt info segsize : Z) (pl : list Z)               (* ConnInit 302-309 *)
  | NCC (d s fcopt info segsize : Z) (data : list Z)                        (* ConnConf 311-317 *)
  | NDI (d s reason : Z) (data : list Z)                                    (* DiscInit 354-363 *)
  | NDC (d s reason : Z)                                                    (* DiscConf 319-351; NoRes, NoLink, DiscComp are reasons 1, 41, 42 *)
  | NEmpty.                                                                 (* NspHdr (b""): no buffer, no fields *)

(** BM.encode 281-300 with values and positions given: (value, start, bits). *)
Fixpoint bits_enc (l : list (Z * Z * Z)) (field : Z) : res Z :=
  match l with
  | [] => Ok field
  | (v, st, n) :: t => if negb (Z.shiftr v n =? 0) then Err EDecode else bits_enc t (Z.lor field (Z.shiftl v st))
  end.
(** The MSGFLG byte, NspHdr 123-132; a field that is not set counts as 0. *)
Definition flag_enc (type subtype int_ls bom eom int : Z) : res (list Z) :=
  let* f := bits_enc [(0, 0, 2); (type, 2, 2); (subtype, 4, 3); (int_ls, 4, 1); (bom, 5, 1); (eom, 6, 1); (int, 5, 1); (0, 7, 1)] 0 in to_bytes 1 f.
(** AckNum.encode 89-90, AckNum.__init__ 51-55 (ValueError; Seq masks the number). *)
Definition ack_enc (a : ack) : res (list Z) :=
  match a with
  | None => Ok []
  | Some (n, q) => if (0 <=? q) && (q <=? 3) then to_bytes 2 (32768 + Z.shiftl q 12 + Z.land n 4095) else Err EValue
  end.
(** Seq.encode 37-38. *)
Definition seq_enc (v : Z) : res (list Z) := to_bytes 2 (Z.land v 4095).
(** AckHdr 159-162. *)
Definition ackhdr_enc (d s : Z) (a1 a2 : ack) : res (list Z) :=
  let* x1 := to_bytes 2 d in let* x2 := to_bytes 2 s in let* x3 := ack_enc a1 in let* x4 := ack_enc a2 in Ok (x1 ++ x2 ++ x3 ++ x4).
(** ConnMsg 268-276. *)
Definition connhdr_enc (d s fcopt info segsize : Z) : res (list Z) :=
  let* x1 := to_bytes 2 d in let* x2 := to_bytes 2 s in
  let* f := bits_enc [(1, 0, 2); (fcopt, 2, 2); (0, 4, 4)] 0 in let* x3 := to_bytes 1 f in
  let* x4 := ex_enc 1 info in let* x5 := to_bytes 2 segsize in Ok (x1 ++ x2 ++ x3 ++ x4 ++ x5).
Definition encode (p : npkt) : res (list Z) :=
  match p with
  | NData d s a1 a2 seg dly bom eom pl =>
      let* h := flag_enc 0 0 0 bom eom 0 in let* x := ackhdr_enc d s a1 a2 in
      let* f := bits_enc [(Z.land seg 4095, 0, 12); (dly, 12, 1)] 0 in let* y := to_bytes 2 f in Ok (h ++ x ++ y ++ pl)
  | NInt d s a1 a2 seg pl =>
      let* h := flag_enc 0 3 1 0 0 1 in let* x := ackhdr_enc d s a1 a2 in let* y := seq_enc seg in Ok (h ++ x ++ y ++ pl)
  | NLs d s a1 a2 seg fcmod fcint fcval =>
      let* h := flag_enc 0 1 1 0 0 0 in let* x := ackhdr_enc d s a1 a2 in let* y := seq_enc seg in
      let* f := bits_enc [(fcmod, 0, 2); (fcint, 2, 2)] 0 in let* z := to_bytes 1 f in let* w := signed_enc 1 fcval in Ok (h ++ x ++ y ++ z ++ w)
  | NAckData d s a1 a2 => let* h := flag_enc 1 0 0 0 0 0 in let* x := ackhdr_enc d s a1 a2 in Ok (h ++ x)
  | NAckOther d s a1 a2 => let* h := flag_enc 1 1 0 0 0 0 in let* x := ackhdr_enc d s a1 a2 in Ok (h ++ x)
  | NAckConn d => let* h := flag_enc 1 2 0 0 0 0 in let* x := to_bytes 2 d in Ok (h ++ x)
  | NCI rci s fcopt info segsize pl =>
      let* h := flag_enc 2 (if rci then 6 else 1) 0 0 0 0 in let* x := connhdr_enc 0 s fcopt info segsize in Ok (h ++ x ++ pl)
  | NCC d s fcopt info segsize data =>
      let* h := flag_enc 2 2 0 0 0 0 in let* x := connhdr_enc d s fcopt info segsize in let* y := image_enc 16 data in Ok (h ++ x ++ y)
  | NDI d s reason data =>
      let* h := flag_enc 2 3 0 0 0 0 in let* x1 := to_bytes 2 d in let* x2 := to_bytes 2 s in let* x3 := to_bytes 2 reason in
      let* y := image_enc 16 data in Ok (h ++ x1 ++ x2 ++ x3 ++ y)
  | NDC d s reason =>
      let* h := flag_enc 2 4 0 0 0 0 in let* x1 := to_bytes 2 d in let* x2 := to_bytes 2 s in let* x3 := to_bytes 2 reason in Ok (h ++ x1 ++ x2 ++ x3)
  | NEmpty => flag_enc 0 0 0 0 0 0
  end.

(** * Decoding *)
Definition word_dec (buf : list Z) : res (Z * list Z) := let* (h, r) := fixed_dec 2 buf in Ok (le_dec h, r).
(** AckNum.decode 66-78. *)
Definition ack_dec (buf : list Z) : ack * list Z :=
  if 2 <=? zlen buf then
    let v := le_dec (upto 2 buf) in
    if negb (Z.land v 32768 =? 0) then
      let q := Z.land (Z.shiftr v 12) 7 in
      if q <=? 3 then (Some (Z.land v 4095, q), from 2 buf) else (None, from 2 buf)
    else (None, buf)
  else (None, buf).
(** is_cross 95-96. *)
Definition is_cross (q : Z) : bool := (q =? 2) || (q =? 3).
(** AckHdr.check 164-170. *)
Definition ack_check (a1 a2 : ack) : res unit :=
  match a1, a2 with
  | Some (_, q1), Some (_, q2) => if Bool.eqb (is_cross q1) (is_cross q2) then Err EDecode else Ok tt
  | _, _ => Ok tt
  end.
(** AckData.check 182-187. *)
Definition ackdata_check (a1 a2 : ack) : res unit := let* _ := ack_check a1 a2 in match a1 with None => Err EDecode | Some _ => Ok tt end.
Definition ackhdr_dec (buf : list Z) : res (Z * Z * ack * ack * list Z) :=
  let* (d, b1) := word_dec buf in let* (s, b2) := word_dec b1 in
  let '(a1, b3) := ack_dec b2 in let '(a2, b4) := ack_dec b3 in Ok (d, s, a1, a2, b4).
Definition seq_dec (buf : list Z) : res (Z * list Z) := let* (v, r) := word_dec buf in Ok (Z.land v 4095, r).
Definition byte_dec (buf : list Z) : res (Z * list Z) := let* (h, r) := fixed_dec 1 buf in Ok (le_dec h, r).
(** ConnMsg; mb1 must be 1 and mbz 0 (ROField). *)
Definition connhdr_dec (buf : list Z) : res (Z * Z * Z * Z * Z * list Z) :=
  let* (d, b1) := word_dec buf in let* (s, b2) := word_dec b1 in
  let* (f, b3) := byte_dec b2 in
  if negb (Z.land f 3 =? 1) then Err EDecode
  else if negb (Z.shiftr f 4 =? 0) then Err EDecode
  else
    let* (i, b4) := ex_dec 1 b3 in let* (z, b5) := word_dec b4 in Ok (d, s, Z.land (Z.shiftr f 2) 3, i, z, b5).
(** tolerantI.decode 104-114. *)
Definition tolerant_dec (maxlen : Z) (buf : list Z) : res (list Z * list Z) :=
  match buf with
  | [] => Ok ([], [])
  | flen :: _ => if (maxlen <? flen) || (zlen buf + 1 <? flen) then Ok ([], []) else image_dec maxlen buf
  end.
(** Packet.__new__: ExtraData if anything is left. *)
Definition done (r : list Z) (p : npkt) : res npkt := match r with [] => Ok p | _ => Err EDecode end.
(** The class index by MSGFLG (classindex of 128 entries; other values have no
    class or are out of range). *)
Definition decode (buf : list Z) : res npkt :=
  match buf with
  | [] => Ok NEmpty
  | h :: b =>
    if (h =? 0) || (h =? 32) || (h =? 64) || (h =? 96) then
      let* (d, s, a1, a2, b1) := ackhdr_dec b in let* (f, b2) := word_dec b1 in
      let* _ := ack_check a1 a2 in
      Ok (NData d s a1 a2 (Z.land f 4095) (Z.land (Z.shiftr f 12) 1) (Z.land (Z.shiftr h 5) 1) (Z.land (Z.shiftr h 6) 1) b2)
    else if h =? 48 then
      let* (d, s, a1, a2, b1) := ackhdr_dec b in let* (n, b2) := seq_dec b1 in let* _ := ack_check a1 a2 in Ok (NInt d s a1 a2 n b2)
    else if h =? 16 then
      let* (d, s, a1, a2, b1) := ackhdr_dec b in let* (n, b2) := seq_dec b1 in let* (f, b3) := byte_dec b2 in
      let* (w, b4) := fixed_dec 1 b3 in
      (* LinkSvcMsg.check 258-261 replaces AckHdr.check *)
      if (1 <? Z.land (Z.shiftr f 2) 3) || (Z.land f 3 =? 3) then Err EDecode
      else done b4 (NLs d s a1 a2 n (Z.land f 3) (Z.land (Z.shiftr f 2) 3) (le_dec_signed 1 w))
    else if h =? 4 then
      let* (d, s, a1, a2, b1) := ackhdr_dec b in let* _ := ackdata_check a1 a2 in done b1 (NAckData d s a1 a2)
    else if h =? 20 then
      let* (d, s, a1, a2, b1) := ackhdr_dec b in let* _ := ackdata_check a1 a2 in done b1 (NAckOther d s a1 a2)
    else if h =? 36 then
      let* (d, b1) := word_dec b in Ok (NAckConn d)
    else if (h =? 24) || (h =? 104) then
      let* (d, s, f, i, z, b1) := connhdr_dec b in if negb (d =? 0) then Err EDecode else Ok (NCI (h =? 104) s f i z b1)
    else if h =? 40 then
      let* (d, s, f, i, z, b1) := connhdr_dec b in let* (x, b2) := tolerant_dec 16 b1 in done b2 (NCC d s f i z x)
    else if h =? 56 then
      let* (d, b1) := word_dec b in let* (s, b2) := word_dec b1 in let* (r, b3) := word_dec b2 in let* (x, b4) := tolerant_dec 16 b3 in
      done b4 (NDI d s r x)
    else if h =? 72 then
      let* (d, b1) := word_dec b in let* (s, b2) := word_dec b1 in let* (r, b3) := word_dec b2 in done b3 (NDC d s r)
    else Err EDecode
  end.
