(** DDCMP message coding and framing: ddcmp.py 134-318 (message classes),
    462-525 (header_search, handle_pkt), 941-990 (serial receive_loop and
    sendmsg), 1091-1192 (TCP and Telnet), 1230-1306 (UDP). *)
From Verif Require Import Base CrcModel PacketModel DdcmpModel.

Definition SOH := 129. Definition ENQ := 5. Definition DLE := 144. Definition SYN := 150. Definition DEL := 255.
Definition HDRLEN := 8.

(** The CRC16 class (ddcmp.py:50-53): crc of some data, its encoding, and the
    check that data ends in its own CRC. *)
Definition crc16_of (data : list Z) : res (list Z) :=
  let* (k, g) := make_crc16 in let* c := update k (initial k) data in crc_bytes k c.
Definition crc16_good (data : list Z) : bool :=
  match make_crc16 with
  | Ok (k, g) => match update k (initial k) data with Ok c => good k g c | Err _ => false end
  | Err _ => false
  end.

(** Layouts (134-305).  Fields: 1 count or type, 2 subtype, 3 qsync, 4 select,
    5 resp, 6 num, 7 addr. *)
Definition ro (z : Z) : const := CRo (VInt z).
Definition bit_ (n start bits : Z) (c : const) : bme := {| be_name := FN n; be_start := start; be_bits := bits; be_const := c |}.
Definition data_layout (soh : Z) (qs sel resp num : const) : rows :=
  rcons (RSimple (TB 1) (FN 0) (CAny (VInt soh)))
 (rcons (RBM 2 [bit_ 1 0 14 CNone; bit_ 3 14 1 qs; bit_ 4 15 1 sel])
 (rcons (RSimple (TB 1) (FN 5) resp) (rcons (RSimple (TB 1) (FN 6) num) (rcons (RSimple (TB 1) (FN 7) CNone) rnil)))).
Definition ctl_layout (type : Z) (sub qs sel resp num : const) : rows :=
  rcons (RSimple (TB 1) (FN 0) (CAny (VInt ENQ))) (rcons (RSimple (TB 1) (FN 1) (CAny (VInt type)))
 (rcons (RBM 1 [bit_ 2 0 6 sub; bit_ 3 6 1 qs; bit_ 4 7 1 sel])
 (rcons (RSimple (TB 1) (FN 5) resp) (rcons (RSimple (TB 1) (FN 6) num) (rcons (RSimple (TB 1) (FN 7) CNone) rnil))))).
Definition DataL := data_layout SOH CNone CNone CNone CNone.
Definition MaintL := data_layout DLE (ro 1) (ro 1) (ro 0) (ro 0).
Definition AckL := ctl_layout 1 (ro 0) CNone CNone CNone (ro 0).
Definition NakL := ctl_layout 2 CNone CNone CNone CNone (ro 0).
Definition RepL := ctl_layout 3 (ro 0) CNone CNone (ro 0) CNone.
Definition StartL := ctl_layout 6 (ro 0) (ro 1) (ro 1) (ro 0) (ro 0).
Definition StackL := ctl_layout 7 (ro 0) (ro 1) (ro 1) (ro 0) (ro 0).

(** The attributes of the objects the state machine builds, with addr as set by
    DMHdr.encode. *)
Definition int_ (n z : Z) : name * val := (FN n, VInt z).
Definition hdr_of (m : msg) : res (list Z) :=
  match m with
  | DataM resp num p => encode DataL [int_ 1 (zlen p); int_ 5 resp; int_ 6 num; int_ 7 1]
  | AckM resp => encode AckL [int_ 5 resp; int_ 7 1]
  | NakM code resp => encode NakL [int_ 2 code; int_ 5 resp; int_ 7 1]
  | RepM num => encode RepL [int_ 6 num; int_ 7 1]
  | StartM => encode StartL [int_ 7 1]
  | StackM => encode StackL [int_ 7 1]
  | MaintM p => encode MaintL [int_ 1 (zlen p); int_ 7 1]
  end.
(** DMHdr.encode and BaseDataMsg.encode with CRCs (158-172, 229-246). *)
Definition frame_of (m : msg) : res (list Z) :=
  let* h := hdr_of m in
  let* hc := crc16_of h in
  match m with
  | DataM _ _ p | MaintM p => let* pc := crc16_of p in Ok (h ++ hc ++ p ++ pc)
  | _ => Ok (h ++ hc)
  end.

(** Decoding the header (DMHdr.decode, IndexedPacket.decode): the class found
    by the start byte and, for control messages, the type in a list of 8. *)
Inductive hdr := HCtl (m : msg) | HData (count resp num : Z) | HMaint (count : Z).
Definition geti (a : attrs) (n : Z) : Z := match get a (FN n) with Some (VInt z) => z | _ => 0 end.
Definition hdr_dec (c : list Z) : res hdr :=
  match c with
  | soh :: t =>
      if soh =? SOH then
        let* (a, _) := decode false DataL c in Ok (HData (geti a 1) (geti a 5) (geti a 6))
      else if soh =? DLE then let* (a, _) := decode false MaintL c in Ok (HMaint (geti a 1))
      else if soh =? ENQ then
        match t with
        | type :: _ =>
            if type =? 1 then let* (a, _) := decode false AckL c in Ok (HCtl (AckM (geti a 5)))
            else if type =? 2 then let* (a, _) := decode false NakL c in Ok (HCtl (NakM (geti a 2) (geti a 5)))
            else if type =? 3 then let* (a, _) := decode false RepL c in Ok (HCtl (RepM (geti a 6)))
            else if type =? 6 then let* (a, _) := decode false StartL c in Ok (HCtl StartM)
            else if type =? 7 then let* (a, _) := decode false StackL c in Ok (HCtl StackM)
            else Err EDecode
        | [] => Err EDecode
        end
      else Err EDecode
  | [] => Err EDecode
  end.

(** Work items from the receive side. *)
Inductive ritem := Good (m : msg) | Bad (code : Z) (resp : option Z).
Definition R_HCRC := 1. Definition R_CRC := 2. Definition R_FMT := 17.
(** handle_pkt (505-525) for a message with payload. *)
Definition handle (h : hdr) (p : list Z) (ok : bool) : ritem :=
  match h with
  | HCtl m => Good m
  | HData _ resp num => if ok then Good (DataM resp num p) else Bad R_CRC (Some resp)
  | HMaint _ => if ok then Good (MaintM p) else Bad R_CRC None
  end.
Definition is_start (b : Z) : bool := (b =? ENQ) || (b =? SOH) || (b =? DLE).

(** *** Byte streams *)
(** The receivers take readbytes as an argument: it returns exactly the number
    of bytes asked for and the rest of the stream, or None for IOError. *)
Section Stream.
Variable T : Type.
Variable readbytes : Z -> T -> option (list Z * T).
(** header_search (463-503).  [c] is what has been read and not yet rejected.
    Returns the header (None: IOError), the stream after it, the insync flag and
    the number of Err (R_HCRC) items.  [fuel] bounds the iterations; each takes
    a byte off [c] or the first byte off the stream. *)
Fixpoint header_search (fuel : nat) (c : list Z) (s : T) (insync : bool) : option (list Z * T) * bool * list ritem :=
  match fuel with
  | O => (None, insync, [])
  | S f =>
      match c with
      | [] => match readbytes 1 s with
              | None => (None, insync, [])
              | Some (c, s) => header_search f c s insync
              end
      | h :: t =>
          if is_start h then
            match readbytes (HDRLEN - zlen c) s with
            | None => (None, insync, [])
            | Some (x, s) =>
                let c := c ++ x in
                if crc16_good c then (Some (c, s), true, [])
                else
                  let '(r, i, e) := header_search f (tl c) s false in
                  (r, i, (if insync then [Bad R_HCRC None] else []) ++ e)
            end
          else header_search f t s insync
      end
  end.
(** One iteration of receive_loop after the header (959-972, 1136-1150); with
    BaseDataMsg.decode reading the payload (198-215).  None: the next read
    fails too. *)
Definition after_header (c : list Z) (s : T) : list ritem * option T :=
  match hdr_dec c with
  | Err _ => ([], Some s)
  | Ok (HCtl m) => ([Good m], Some s)
  | Ok (HData n _ _ as h) | Ok (HMaint n as h) =>
      match readbytes n s with
      | None => ([handle h [] false], None)
      | Some (p, s) =>
          match readbytes 2 s with
          | None => ([handle h [] false], None)
          | Some (pc, s) => ([handle h p (crc16_good (p ++ pc))], Some s)
          end
      end
  end.
(** receive_loop until the stream ends. *)
Fixpoint receive_loop (fuel hfuel : nat) (s : T) (insync : bool) : list ritem :=
  match fuel with
  | O => []
  | S f =>
      match header_search hfuel [] s insync with
      | (None, _, e) => e
      | (Some (c, s), i, e) =>
          let (it, next) := after_header c s in
          e ++ it ++ match next with Some s => receive_loop f hfuel s i | None => [] end
      end
  end.
End Stream.
(** A stream with all its bytes known: enough fuel. *)
Definition read_list (n : Z) (s : list Z) : option (list Z * list Z) :=
  if zlen s <? n then None else Some (upto n s, from n s).
Definition hs_fuel (s : list Z) : nat := (2 * length s + 2)%nat.
Definition receive (s : list Z) : list ritem :=
  receive_loop (list Z) read_list (S (length s)) (hs_fuel s) s false.
(** sendmsg on a serial line appends a fill byte (979-985). *)
Definition serial_out (f : list Z) : list Z := f ++ [DEL].

(** *** Telnet *)
(** bytes.replace (DEL1, DEL2) and replace (DEL2, DEL1), left to right without
    overlaps. *)
Fixpoint escape (l : list Z) : list Z :=
  match l with [] => [] | b :: t => if b =? DEL then DEL :: DEL :: escape t else b :: escape t end.
Fixpoint unescape (l : list Z) : list Z :=
  match l with
  | a :: ((b :: t') as t) => if (a =? DEL) && (b =? DEL) then DEL :: unescape t' else a :: unescape t
  | _ => l
  end.
Fixpoint count_del (l : list Z) : Z := match l with [] => 0 | b :: t => (if b =? DEL then 1 else 0) + count_del t end.
(** _TcpDDCMP.sendmsg in Telnet mode (1182-1186). *)
Definition telnet_out (f : list Z) : list Z := escape f ++ [DEL; DEL].
(** _TcpDDCMP.readbytes in Telnet mode (1096-1109), over recvall.  Each
    iteration adds at least a byte. *)
Section Telnet.
Variable T : Type.
Variable recvall : Z -> T -> option (list Z * T).
Fixpoint telnet_loop (fuel : nat) (sz : Z) (p : list Z) (s : T) : option (list Z * T) :=
  if sz <=? zlen p then Some (p, s)
  else match fuel with
       | O => None
       | S f =>
           match recvall (sz - zlen p) s with
           | None => None
           | Some (b, s) =>
               let e := count_del b in
               match (if Z.odd e then match recvall 1 s with None => None | Some (b2, s) => Some (b ++ b2, s) end
                      else Some (b, s)) with
               | None => None
               | Some (b, s) => telnet_loop f sz (p ++ (if negb (e =? 0) then unescape b else b)) s
               end
           end
       end.
Definition telnet_read (sz : Z) (s : T) : option (list Z * T) := telnet_loop (Z.to_nat sz) sz [] s.
End Telnet.

(** *** UDP *)
(** The scan for the start of the message (1254-1264): the index left in [i]. *)
Fixpoint udp_scan (i : nat) (m : list Z) (len : nat) : nat :=
  match m with
  | [] => (i - 1)%nat
  | h :: t => if (h =? SYN) || (h =? DEL) then udp_scan (S i) t len
              else if is_start h then i else len
  end.
(** One datagram (1254-1293), not empty.  DMHdr.decode checks the header CRC;
    BaseDataMsg.decode takes the payload from the buffer (216-227). *)
Definition udp_recv (d : list Z) : list ritem :=
  let c := skipn (udp_scan 0 d (length d)) d in
  match c with
  | [] => []
  | _ =>
      if zlen c <? HDRLEN then [Bad R_HCRC None]
      else if negb (crc16_good (upto HDRLEN c)) then [Bad R_HCRC None]
      else
        match hdr_dec c with
        | Err _ => [Bad R_FMT None]
        | Ok (HCtl m) => [Good m]
        | Ok (HData n _ _ as h) | Ok (HMaint n as h) =>
            let b := from HDRLEN c in
            if zlen b <? n + 2 then [handle h [] false]
            else [handle h (upto n b) (crc16_good (upto (n + 2) b))]
        end
  end.
