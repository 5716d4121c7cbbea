(** Model of the packet encode/decode engine, decnet/packet.py.

    Layouts are a deep embedding of the [_codetable] that the metaclass builds
    (packet.py:748-905).  Simplifications: attribute names are numbers; bit
    field elements are of type int (the code also allows other int-like
    types); the per-class [check] hook (1086) and the [decoded_from] attribute
    are not part of the engine model; values of the wrong Python type, which
    [checktype] would convert by calling the class (common.py:176-193), are
    rejected with [EType]; the index lookup is in PacketIndexModel.v. *)
From Verif Require Import Base.

(** Attribute names: those in the layout, and the generated "fieldNN" of wild
    TLV groups (packet.py:533). *)
Inductive name := FN (n : Z) | FW (tag : Z).
Definition name_eqb (a b : name) : bool :=
  match a, b with FN x, FN y => x =? y | FW x, FW y => x =? y | _, _ => false end.

(** Field values. [VStr] holds code points. [VPkt] holds the attributes of a
    nested packet object, last assigned first. *)
Inductive val :=
| VInt (z : Z)
| VBytes (l : list Z)
| VStr (l : list Z)
| VList (l : list val)
| VPkt (a : list (name * val)).

Definition attrs := list (name * val).
Fixpoint get (a : attrs) (n : name) : option val :=
  match a with
  | [] => None
  | (m, v) :: t => if name_eqb m n then Some v else get t n
  end.

(** A class attribute turned into a descriptor (packet.py:65-97, 866-875):
    [CRo] raises WrongValue when a different value is assigned, [CAny] (the
    class index key) ignores assignments. *)
Inductive const := CNone | CRo (v : val) | CAny (v : val).

(** One element of a bit map: name, start, bits (packet.py:343-361). *)
Record bme := { be_name : name; be_start : Z; be_bits : Z; be_const : const }.

Inductive ty :=
| TB (n : nat)         (* B, packet.py:188-223 *)
| TSIGNED (n : nat)    (* 225-253 *)
| TCTR (n : nat)       (* 255-262 *)
| TI (maxlen : Z)      (* 110-135 *)
| TA (maxlen : Z)      (* 137-160 *)
| TEX (maxlen : nat)   (* 363-393 *)
| TITLV                (* 395-404 *)
| TBV (n : nat)        (* 406-427 *)
| TPAYLOAD             (* 429-452 *)
| TLIST (t : ty) (count : option nat)  (* 458-478 *)
| TPKT (r : rows)      (* a Packet class used as a field, packet.py:907- *)
with row :=
| RSimple (t : ty) (n : name) (c : const)
| RBM (flen : nat) (els : list bme)    (* 264-361 *)
| RRES (n : nat)                       (* 162-186 *)
| RTLV (tlen llen : nat) (wild : bool) (codes : codes) (* 480-573 *)
with rows := rnil | rcons (r : row) (t : rows)
with codes := cnil | ccons (tag : Z) (r : row) (t : codes).

(** [flen] computed by BM.makecoderow, packet.py:348-360. *)
Definition bm_flen (els : list bme) : nat :=
  Z.to_nat ((fold_left (fun m e => Z.max m (be_start e + be_bits e - 1)) els (-1) + 8) / 8).

(** *** Encoding *)

(** EX.encode, packet.py:367-378.  [val >> 7] of a negative number never
    becomes 0, so the loop does not terminate.  For non-negative values the
    fuel [ex_fuel] exceeds the number of iterations. *)
Fixpoint ex_loop (fuel : nat) (v : Z) : res (list Z) :=
  match fuel with
  | O => Err EDiverge
  | S f =>
      if Z.shiftr v 7 =? 0 then Ok [v]
      else let* r := ex_loop f (Z.shiftr v 7) in
           Ok (Z.lor (Z.land v 127) 128 :: r)
  end.
Definition ex_fuel (v : Z) : nat := S (Z.to_nat (Z.log2_up (v + 1))).
Definition ex_enc (maxlen : nat) (v : Z) : res (list Z) :=
  let* r := ex_loop (ex_fuel v) v in
  if (Z.of_nat maxlen <? zlen r) then Err EDecode else Ok r.

(** SIGNED.encode, packet.py:229 (n > 0). *)
Definition signed_enc (n : nat) (v : Z) : res (list Z) :=
  let half := 2 ^ (8 * Z.of_nat n - 1) in
  if (- half <=? v) && (v <? half) then Ok (le_enc n (v mod 256 ^ Z.of_nat n)) else Err EOverflow.

(** common.py:608 [maxint] has entries for 0..8 bytes. *)
Definition maxint (n : nat) : res Z :=
  if (n <=? 8)%nat then Ok (2 ^ (8 * Z.of_nat n) - 1) else Err EIndex.
(** CTR.encode, packet.py:259-262. *)
Definition ctr_enc (n : nat) (v : Z) : res (list Z) :=
  let* m := maxint n in
  if v <=? m then to_bytes n v else to_bytes n m.

(** I.encode, packet.py:113-118; [byte (vl)] raises ValueError above 255. *)
Definition image_enc (maxlen : Z) (l : list Z) : res (list Z) :=
  if maxlen <? zlen l then Err EDecode
  else if 255 <? zlen l then Err EValue
  else Ok (zlen l :: l).

(** A.encode, packet.py:140-146: latin1 encoding first. *)
Definition ascii_enc (maxlen : Z) (l : list Z) : res (list Z) :=
  if forallb byte_okb l then image_enc maxlen l else Err EValue.

(** BV.encode, packet.py:410-418: zero padded. *)
Definition bv_enc (n : nat) (l : list Z) : res (list Z) :=
  if (Z.of_nat n <? zlen l) then Err EDecode
  else Ok (l ++ repeat 0 (n - length l)).

(** Field.checktype on None, common.py:190-192. *)
Definition dflt (t : ty) : val :=
  match t with
  | TB _ | TSIGNED _ | TCTR _ | TEX _ => VInt 0
  | TI _ | TITLV | TBV _ | TPAYLOAD => VBytes []
  | TA _ => VStr []
  | TLIST _ _ => VList []
  | TPKT _ => VPkt []
  end.

(** getattr (packet, name, default), taking class constants into account. *)
Definition getattr (a : attrs) (n : name) (c : const) : option val :=
  match c with CNone => get a n | CRo v | CAny v => Some v end.

(** BM.encode, packet.py:281-300. *)
Fixpoint bm_fold (els : list bme) (a : attrs) (field : Z) : res Z :=
  match els with
  | [] => Ok field
  | e :: t =>
      match (match getattr a (be_name e) (be_const e) with Some v => v | None => VInt 0 end) with
      | VInt v =>
          if negb (Z.shiftr v (be_bits e) =? 0) then Err EDecode
          else bm_fold t a (Z.lor field (Z.shiftl v (be_start e)))
      | _ => Err EType
      end
  end.
Definition bm_enc (flen : nat) (els : list bme) (a : attrs) : res (list Z) :=
  let* f := bm_fold els a 0 in to_bytes flen f.

Definition concat_res (f : val -> res (list Z)) : list val -> res (list Z) :=
  fix go l := match l with
              | [] => Ok []
              | v :: t => let* b := f v in let* r := go t in Ok (b ++ r)
              end.

Fixpoint enc_ty (t : ty) (v : val) {struct t} : res (list Z) :=
  match t, v with
  | TB n, VInt z => to_bytes n z
  | TSIGNED n, VInt z => signed_enc n z
  | TCTR n, VInt z => ctr_enc n z
  | TI m, VBytes l => image_enc m l
  | TA m, VStr l => ascii_enc m l
  | TEX m, VInt z => ex_enc m z
  | TITLV, VBytes l => Ok l
  | TBV n, VBytes l => bv_enc n l
  | TPAYLOAD, VBytes l => Ok l
  | TLIST t' _, VList l => concat_res (enc_ty t') l
  | TPKT r, VPkt a => enc_rows r a
  | _, _ => Err EType
  end
(** One row of Packet.encode, packet.py:1011-1023. *)
with enc_row (r : row) (a : attrs) {struct r} : res (list Z) :=
  match r with
  | RSimple t n c => enc_ty t (match getattr a n c with Some v => v | None => dflt t end)
  | RBM flen els => bm_enc flen els a
  | RRES n => Ok (repeat 0 n)
  | RTLV tlen llen _ cs => enc_codes tlen llen cs a
  end
(** Packet.encode, packet.py:1006-1027. *)
with enc_rows (r : rows) (a : attrs) {struct r} : res (list Z) :=
  match r with
  | rnil => Ok []
  | rcons x t => let* b := enc_row x a in let* c := enc_rows t a in Ok (b ++ c)
  end
(** TLV.encode, packet.py:485-502: absent simple fields are omitted. *)
with enc_codes (tlen llen : nat) (cs : codes) (a : attrs) {struct cs} : res (list Z) :=
  match cs with
  | cnil => Ok []
  | ccons k r t =>
      let* ov := match r with
                 | RSimple ty n c =>
                     match getattr a n c with
                     | None => Ok None
                     | Some v => let* b := enc_ty ty v in Ok (Some b)
                     end
                 | _ => let* b := enc_row r a in Ok (Some b)
                 end in
      let* here := match ov with
                   | None => Ok []
                   | Some b => let* kt := to_bytes tlen k in
                               let* lt := to_bytes llen (zlen b) in
                               Ok (kt ++ lt ++ b)
                   end in
      let* rest := enc_codes tlen llen t a in Ok (here ++ rest)
  end.

(** *** Decoding *)

(** EX.decode, packet.py:380-393.  [i] counts up to [maxlen]; with
    [maxlen = 0] the loop variable is unbound (NameError). *)
Fixpoint ex_dec_loop (left : nat) (sh v : Z) (buf : list Z) : res (Z * list Z) :=
  match left with
  | O => Err EDecode (* not reached: the last iteration raises or breaks *)
  | S l =>
      match buf with
      | [] => Err EDecode
      | b :: t =>
          let v := Z.lor v (Z.shiftl (Z.land b 127) sh) in
          if b <? 128 then Ok (v, t)
          else match l with O => Err EDecode | _ => ex_dec_loop l (sh + 7) v t end
      end
  end.
Definition ex_dec (maxlen : nat) (buf : list Z) : res (Z * list Z) :=
  match maxlen with O => Err EName | _ => ex_dec_loop maxlen 0 0 buf end.

(** I.decode / A.decode, packet.py:120-132, 148-160. *)
Definition image_dec (maxlen : Z) (buf : list Z) : res (list Z * list Z) :=
  match buf with
  | [] => Err EDecode
  | flen :: t =>
      if maxlen <? flen then Err EDecode
      else if zlen (upto flen t) =? flen then Ok (upto flen t, from flen t) else Err EDecode
  end.

Definition fixed_dec (n : nat) (buf : list Z) : res (list Z * list Z) :=
  let* _ := require buf (Z.of_nat n) in
  Ok (upto (Z.of_nat n) buf, from (Z.of_nat n) buf).

(** int.from_bytes (..., signed = True). *)
Definition le_dec_signed (n : nat) (l : list Z) : Z :=
  let u := le_dec l in
  if u <? 2 ^ (8 * Z.of_nat n - 1) then u else u - 256 ^ Z.of_nat n.

(** Comparison with a class constant; constants are ints, bytes or str. *)
Definition val_eqb (a b : val) : bool :=
  match a, b with
  | VInt x, VInt y => x =? y
  | VBytes x, VBytes y | VStr x, VStr y => leqb x y
  | _, _ => false
  end.

(** setattr (packet, name, value), packet.py:75-78, 90-97. *)
Definition setattr (a : attrs) (n : name) (c : const) (v : val) : res attrs :=
  match c with
  | CNone => Ok ((n, v) :: a)
  | CRo k => if val_eqb v k then Ok a else Err EDecode
  | CAny _ => Ok a
  end.

(** BM.decode, packet.py:302-316. *)
Fixpoint bm_unpack (els : list bme) (field : Z) (a : attrs) : res attrs :=
  match els with
  | [] => Ok a
  | e :: t =>
      let* a := setattr a (be_name e) (be_const e)
                  (VInt (Z.land (Z.shiftr field (be_start e)) (Z.ones (be_bits e)))) in
      bm_unpack t field a
  end.

(** LIST.decode without count, packet.py:471-473.  When an element consumes
    nothing the loop repeats forever. *)
Fixpoint list_all (fuel : nat) (dec : list Z -> res (val * list Z)) (buf : list Z)
  : res (list val * list Z) :=
  match buf, fuel with
  | [], _ => Ok ([], [])
  | _, O => Err EDiverge
  | _, S f =>
      let* (v, r) := dec buf in
      let* (l, r') := list_all f dec r in
      Ok (v :: l, r')
  end.
Fixpoint list_n (n : nat) (dec : list Z -> res (val * list Z)) (buf : list Z)
  : res (list val * list Z) :=
  match n with
  | O => Ok ([], buf)
  | S m =>
      let* (v, r) := dec buf in
      let* (l, r') := list_n m dec r in
      Ok (v :: l, r')
  end.

(** TLV.decode, packet.py:504-549, over the part of the buffer not yet parsed.
    [look tag] is the decoder of that tag's row if the tag is known.  Returns
    the attributes; the remaining buffer (None or b'') is always empty. *)
Fixpoint tlv_loop (fuel : nat) (tol wild : bool) (tlen llen : nat)
    (look : Z -> option (attrs -> list Z -> res (attrs * list Z)))
    (a : attrs) (buf : list Z) : res attrs :=
  match buf, fuel with
  | [], _ => Ok a
  | _, O => Err EDiverge
  | _, S f =>
      let hl := Z.of_nat (tlen + llen) in
      if zlen buf <? hl then (if tol then Ok a else Err EDecode)
      else
        let tag := le_dec (upto (Z.of_nat tlen) buf) in
        let vlen := le_dec (upto (Z.of_nat llen) (from (Z.of_nat tlen) buf)) in
        let body := from hl buf in
        if zlen body <? vlen then Err EDecode
        else
          let* (a, buf2) :=
            match look tag with
            | Some d => d a (upto vlen body)
            | None => if wild then Ok ((FW tag, VBytes (upto vlen body)) :: a, [])
                      else Err EDecode
            end in
          let* _ := match buf2 with [] => Ok tt | _ => if tol then Ok tt else Err EDecode end in
          tlv_loop f tol wild tlen llen look a (from vlen body)
  end.

(** packet.py:1055-1059: any exception while decoding a simple field becomes
    AtField, a DecodeError; an infinite loop stays one. *)
Definition atfield {A} (r : res A) : res A :=
  match r with
  | Ok x => Ok x
  | Err EDiverge => Err EDiverge
  | Err _ => Err EDecode
  end.

Fixpoint dec_ty (t : ty) (buf : list Z) {struct t} : res (val * list Z) :=
  match t with
  | TB n | TCTR n => let* (h, r) := fixed_dec n buf in Ok (VInt (le_dec h), r)
  | TSIGNED n => let* (h, r) := fixed_dec n buf in Ok (VInt (le_dec_signed n h), r)
  | TI m => let* (v, r) := image_dec m buf in Ok (VBytes v, r)
  | TA m => let* (v, r) := image_dec m buf in Ok (VStr v, r)
  | TEX m => let* (v, r) := ex_dec m buf in Ok (VInt v, r)
  | TITLV => Ok (VBytes buf, [])
  | TBV n => let* (h, r) := fixed_dec n buf in Ok (VBytes h, r)
  | TPAYLOAD => Ok (VBytes buf, [])
  | TLIST t' None => let* (l, r) := list_all (length buf) (dec_ty t') buf in Ok (VList l, r)
  | TLIST t' (Some n) => let* (l, r) := list_n n (dec_ty t') buf in Ok (VList l, r)
  | TPKT r => let* (a, b) := dec_rows false r [] buf in Ok (VPkt a, b)
  end
(** A row outside a TLV group wraps exceptions of simple fields, inside it does
    not (packet.py:537-541): [dec_rowx] is the unwrapped form. *)
with dec_rowx (tol : bool) (r : row) (a : attrs) (buf : list Z) {struct r} : res (attrs * list Z) :=
  match r with
  | RSimple t n c =>
      let* (v, rest) := dec_ty t buf in
      let* a := setattr a n c v in Ok (a, rest)
  | RBM flen els =>
      let* (h, rest) := fixed_dec flen buf in
      let* a := bm_unpack els (le_dec h) a in Ok (a, rest)
  | RRES n => let* _ := require buf (Z.of_nat n) in Ok (a, from (Z.of_nat n) buf)
  | RTLV tlen llen wild cs =>
      let* a := tlv_loop (length buf) tol wild tlen llen (look_codes tol cs) a buf in Ok (a, [])
  end
(** Packet.decode_data, packet.py:1048-1062, without [check]. *)
with dec_rows (tol : bool) (r : rows) (a : attrs) (buf : list Z) {struct r} : res (attrs * list Z) :=
  match r with
  | rnil => Ok (a, buf)
  | rcons x t =>
      let* (a, buf) := match x with
                       | RSimple _ _ _ => atfield (dec_rowx tol x a buf)
                       | _ => dec_rowx tol x a buf
                       end in
      dec_rows tol t a buf
  end
with look_codes (tol : bool) (cs : codes) (tag : Z) {struct cs}
  : option (attrs -> list Z -> res (attrs * list Z)) :=
  match cs with
  | cnil => None
  | ccons k r t => if tag =? k then Some (dec_rowx tol r) else look_codes tol t tag
  end.

(** Packet.encode and Packet.decode of a class with layout [L]. *)
Definition encode (L : rows) (a : attrs) : res (list Z) := enc_rows L a.
Definition decode (tol : bool) (L : rows) (buf : list Z) : res (attrs * list Z) :=
  dec_rows tol L [] buf.
(** Constructing a packet from a buffer, packet.py:968-976: extra data is an
    error. *)
Definition of_bytes (tol : bool) (L : rows) (buf : list Z) : res attrs :=
  let* (a, r) := decode tol L buf in
  match r with [] => Ok a | _ => Err EDecode end.
