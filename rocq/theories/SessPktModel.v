(** Model of the session control connect message, decnet/session.py:110-219.

    Built from the field codecs of PacketModel.v.  Strings are lists of code
    points.  Fields that the caller of the constructor did not set count as
    empty here (in the code they must be set, Session.connect sets them all,
    session.py:509-511). *)
From Verif Require Import Base PacketModel.

(** EndUser0, EndUser1, EndUser2: session.py:110-162. *)
Inductive enduser :=
| EU0 (num : Z)
| EU1 (name : list Z)
| EU2 (group user : Z) (name : list Z).

(** Packet.encode with the layouts at 113-114, 137, 152-154; the class
    constants [fmt] and [num] are encoded. *)
Definition eu_enc (u : enduser) : res (list Z) :=
  match u with
  | EU0 n => let* b := to_bytes 1 n in Ok (0 :: b)
  | EU1 nm => let* b := ascii_enc 16 nm in Ok (1 :: 0 :: b)
  | EU2 g us nm =>
      let* bg := to_bytes 2 g in
      let* bu := to_bytes 2 us in
      let* b := ascii_enc 16 nm in Ok (2 :: 0 :: bg ++ bu ++ b)
  end.

(** IndexedPacket.decode over [fmt] (packet.py:1141-1160, 213-215, 733-742),
    the rows, and the [check] methods, session.py:121-123, 139-141, 156-158.
    A wrong constant [num] is WrongValue. *)
Definition eu_dec (buf : list Z) : res (enduser * list Z) :=
  let* (f, r) := fixed_dec 1 buf in
  let fmt := le_dec f in
  let* (nb, r) := (if (fmt =? 0) || (fmt =? 1) || (fmt =? 2) then atfield (fixed_dec 1 r) else Err EDecode) in
  let num := le_dec nb in
  if fmt =? 0 then
    if num =? 0 then Err EDecode else Ok (EU0 num, r)
  else if negb (num =? 0) then Err EDecode
  else if fmt =? 1 then
    let* (nm, r) := atfield (image_dec 16 r) in
    match nm with [] => Err EDecode | _ => Ok (EU1 nm, r) end
  else
    let* (g, r) := atfield (fixed_dec 2 r) in
    let* (us, r) := atfield (fixed_dec 2 r) in
    let* (nm, r) := atfield (image_dec 16 r) in
    match nm with [] => Err EDecode | _ => Ok (EU2 (le_dec g) (le_dec us) nm, r) end.

(** The message.  The flags [auth] and [userdata] are computed when encoding
    and only used while decoding. *)
Record sci := {
  sc_dst : enduser; sc_src : enduser;
  sc_proxy : Z; sc_proxyuic : Z; sc_reserved : Z; sc_scver : Z;
  sc_user : list Z; sc_pass : list Z; sc_acct : list Z; sc_data : list Z
}.

Definition nonempty (l : list Z) : bool := match l with [] => false | _ => true end.
Definition has_auth (m : sci) : bool := nonempty (sc_user m) || nonempty (sc_pass m) || nonempty (sc_acct m).
Definition b2z (b : bool) : Z := if b then 1 else 0.
(** BM.encode of one element, packet.py:281-300. *)
Definition elt (v bits start : Z) : res Z :=
  if Z.shiftr v bits =? 0 then Ok (Z.shiftl v start) else Err EDecode.

(** SessionConnInit.encode, session.py:184-201. *)
Definition sci_enc (m : sci) : res (list Z) :=
  let* ac := (if has_auth m then
                let* r := ascii_enc 39 (sc_user m) in
                let* p := ascii_enc 39 (sc_pass m) in
                let* a := ascii_enc 39 (sc_acct m) in Ok (r ++ p ++ a)
              else Ok []) in
  let* ud := (if nonempty (sc_data m) then image_enc 16 (sc_data m) else Ok []) in
  let* d := eu_enc (sc_dst m) in
  let* s := eu_enc (sc_src m) in
  let* px := elt (sc_proxy m) 1 2 in
  let* pu := elt (sc_proxyuic m) 1 3 in
  let* rs := elt (sc_reserved m) 1 4 in
  let* sv := elt (sc_scver m) 2 5 in
  let* f := to_bytes 1 (Z.lor (b2z (has_auth m)) (Z.lor (Z.shiftl (b2z (nonempty (sc_data m))) 1) (Z.lor px (Z.lor pu (Z.lor rs sv))))) in
  Ok (d ++ s ++ f ++ ac ++ ud).

Definition bits (v start n : Z) : Z := Z.land (Z.shiftr v start) (Z.ones n).
(** SessionConnInit decoding: the rows 169-179 and [check], 203-219.  Data
    behind the last field is only logged. *)
Definition sci_dec (buf : list Z) : res sci :=
  let* (d, r) := atfield (eu_dec buf) in
  let* (s, r) := atfield (eu_dec r) in
  let* (fb, pay) := fixed_dec 1 r in
  let f := le_dec fb in
  if negb (bits f 7 1 =? 0) then Err EDecode
  else
    let auth := negb (bits f 0 1 =? 0) in
    let udat := negb (bits f 1 1 =? 0) in
    let mk u p a c := {| sc_dst := d; sc_src := s; sc_proxy := bits f 2 1; sc_proxyuic := bits f 3 1;
                         sc_reserved := bits f 4 1; sc_scver := bits f 5 2;
                         sc_user := u; sc_pass := p; sc_acct := a; sc_data := c |} in
    match pay with
    | [] => if auth || udat then Err EDecode else Ok (mk [] [] [] [])
    | _ =>
        let* (u, p, a, r) := (if auth then
                                let* (u, r) := image_dec 39 pay in
                                let* (p, r) := image_dec 39 r in
                                let* (a, r) := image_dec 39 r in Ok (u, p, a, r)
                              else Ok ([], [], [], pay)) in
        let* (c, r) := (if udat then image_dec 16 r else Ok ([], r)) in
        Ok (mk u p a c)
    end.
