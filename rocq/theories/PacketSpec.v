(** Specification of packet layouts: which layouts are meaningful, which
    attribute values are in range for them, and when a decoded packet has the
    same field values.  Nothing here mentions encoding or decoding. *)
From Verif Require Import Base PacketModel.

(** Consumes the rest of the buffer. *)
Fixpoint final_ty (t : ty) : bool :=
  match t with
  | TITLV | TPAYLOAD => true
  | TLIST _ None => true
  | TPKT r => final_rows r
  | _ => false
  end
with final_rows (r : rows) : bool :=
  match r with
  | rnil => false
  | rcons x rnil => match x with RTLV _ _ _ _ => true | RSimple t _ _ => final_ty t | _ => false end
  | rcons _ t => final_rows t
  end.
Definition final_row (x : row) : bool :=
  match x with RTLV _ _ _ _ => true | RSimple t _ _ => final_ty t | _ => false end.

(** Never empty on the wire (needed for the elements of an uncounted list). *)
Fixpoint solid_ty (t : ty) : bool :=
  match t with
  | TB n | TSIGNED n | TCTR n | TBV n => (0 <? n)%nat
  | TI _ | TA _ => true
  | TEX _ => true
  | TPKT r => solid_rows r
  | _ => false
  end
with solid_rows (r : rows) : bool :=
  match r with
  | rnil => false
  | rcons x t =>
      match x with
      | RSimple ty _ _ => solid_ty ty
      | RBM n _ | RRES n => (0 <? n)%nat
      | RTLV _ _ _ _ => false
      end || solid_rows t
  end.

(** Names assigned by decoding (class constants are not assigned). *)
Definition name_of (n : name) (c : const) : list name :=
  match c with CNone => [n] | _ => [] end.
Fixpoint names_row (r : row) : list name :=
  match r with
  | RSimple _ n c => name_of n c
  | RBM _ els => flat_map (fun e => name_of (be_name e) (be_const e)) els
  | RRES _ => []
  | RTLV _ _ _ cs => names_codes cs
  end
with names_codes (cs : codes) : list name :=
  match cs with cnil => [] | ccons _ r t => names_row r ++ names_codes t end.
Fixpoint names_rows (r : rows) : list name :=
  match r with rnil => [] | rcons x t => names_row x ++ names_rows t end.

Fixpoint tags (cs : codes) : list Z :=
  match cs with cnil => [] | ccons k _ t => k :: tags t end.

(** Bit field elements fit in [flen] bytes and do not overlap. *)
Definition bme_disj (e f : bme) : Prop :=
  be_start e + be_bits e <= be_start f \/ be_start f + be_bits f <= be_start e.
Fixpoint bm_wf (flen : nat) (els : list bme) : Prop :=
  match els with
  | [] => True
  | e :: t => 0 <= be_start e /\ 1 <= be_bits e /\
              be_start e + be_bits e <= 8 * Z.of_nat flen /\
              (forall f, In f t -> bme_disj e f) /\ bm_wf flen t
  end.

Definition const_flat (c : const) : Prop :=
  match c with
  | CNone => True
  | CRo v | CAny v => match v with VList _ | VPkt _ => False | _ => True end
  end.

(** Meaningful layouts.  Only the last row may consume the rest of the
    buffer; names and tags are distinct; list elements are delimited. *)
Fixpoint wf_ty (t : ty) : Prop :=
  match t with
  | TSIGNED n => (1 <= n)%nat
  | TCTR n => (n <= 8)%nat
  | TEX m => (1 <= m)%nat
  | TLIST t' c => wf_ty t' /\ final_ty t' = false /\
                  match c with None => solid_ty t' = true | _ => True end
  | TPKT r => wf_rows r /\ NoDup (names_rows r)
  | _ => True
  end
with wf_row (r : row) : Prop :=
  match r with
  | RSimple t _ c => wf_ty t /\ const_flat c
  | RBM flen els => bm_wf flen els /\ Forall (fun e => const_flat (be_const e)) els
  | RRES _ => True
  | RTLV tlen llen _ cs =>
      (1 <= tlen + llen)%nat /\ NoDup (tags cs) /\
      (forall k, In k (tags cs) -> 0 <= k < 256 ^ Z.of_nat tlen) /\ wf_codes cs
  end
with wf_rows (r : rows) : Prop :=
  match r with
  | rnil => True
  | rcons x t => wf_row x /\ (match t with rnil => True | _ => final_row x = false end) /\ wf_rows t
  end
with wf_codes (cs : codes) : Prop :=
  match cs with
  | cnil => True
  | ccons _ r t => wf_row r /\ match r with RTLV _ _ _ _ => False | _ => True end /\ wf_codes t
  end.

(** Size on the wire of a value. *)
Definition ex_size (z : Z) : Z := 1 + Z.log2 z / 7.
Fixpoint wlen_ty (t : ty) (v : val) : Z :=
  match t, v with
  | TB n, _ | TSIGNED n, _ | TCTR n, _ | TBV n, _ => Z.of_nat n
  | TI _, VBytes l | TA _, VStr l => 1 + zlen l
  | TITLV, VBytes l | TPAYLOAD, VBytes l => zlen l
  | TEX _, VInt z => ex_size z
  | TLIST t' _, VList l => fold_right (fun v n => wlen_ty t' v + n) 0 l
  | TPKT r, VPkt a => wlen_rows r a
  | _, _ => 0
  end
with wlen_row (r : row) (a : attrs) : Z :=
  match r with
  | RSimple t n c => match getattr a n c with Some v => wlen_ty t v | None => 0 end
  | RBM n _ | RRES n => Z.of_nat n
  | RTLV tlen llen _ cs => wlen_codes tlen llen cs a
  end
with wlen_rows (r : rows) (a : attrs) : Z :=
  match r with rnil => 0 | rcons x t => wlen_row x a + wlen_rows t a end
with wlen_codes (tlen llen : nat) (cs : codes) (a : attrs) : Z :=
  match cs with
  | cnil => 0
  | ccons _ r t =>
      match r with
      | RSimple ty n c =>
          match getattr a n c with
          | None => 0
          | Some v => Z.of_nat (tlen + llen) + wlen_ty ty v
          end
      | _ => Z.of_nat (tlen + llen) + wlen_row r a
      end + wlen_codes tlen llen t a
  end.

(** In-range values. *)
Fixpoint val_ok (t : ty) (v : val) : Prop :=
  match t, v with
  | TB n, VInt z | TCTR n, VInt z => 0 <= z < 256 ^ Z.of_nat n
  | TSIGNED n, VInt z => - 2 ^ (8 * Z.of_nat n - 1) <= z < 2 ^ (8 * Z.of_nat n - 1)
  | TI m, VBytes l | TA m, VStr l => bytes_ok l /\ zlen l <= m /\ zlen l <= 255
  | TEX m, VInt z => 0 <= z < 2 ^ (7 * Z.of_nat m)
  | TITLV, VBytes l | TPAYLOAD, VBytes l => bytes_ok l
  | TBV n, VBytes l => bytes_ok l /\ length l = n
  | TLIST t' c, VList l =>
      Forall (val_ok t') l /\ match c with None => True | Some n => length l = n end
  | TPKT r, VPkt a => rows_ok r a
  | _, _ => False
  end
with row_ok (r : row) (a : attrs) : Prop :=
  match r with
  | RSimple t n c => exists v, getattr a n c = Some v /\ val_ok t v
  | RBM _ els => Forall (fun e => exists z, getattr a (be_name e) (be_const e) = Some (VInt z) /\
                                            0 <= z < 2 ^ be_bits e) els
  | RRES _ => True
  | RTLV _ llen _ cs => codes_ok llen cs a
  end
with rows_ok (r : rows) (a : attrs) : Prop :=
  match r with rnil => True | rcons x t => row_ok x a /\ rows_ok t a end
(** Simple TLV items may be absent; the size must fit the length field. *)
with codes_ok (llen : nat) (cs : codes) (a : attrs) : Prop :=
  match cs with
  | cnil => True
  | ccons _ r t =>
      match r with
      | RSimple ty n c =>
          match getattr a n c with
          | None => True
          | Some v => val_ok ty v /\ wlen_ty ty v < 256 ^ Z.of_nat llen
          end
      | _ => row_ok r a /\ wlen_row r a < 256 ^ Z.of_nat llen
      end /\ codes_ok llen t a
  end.

(** Same value; for nested packets, same value of every field. *)
Fixpoint veq (t : ty) (v v' : val) : Prop :=
  match t with
  | TLIST t' _ => exists l l', v = VList l /\ v' = VList l' /\ Forall2 (veq t') l l'
  | TPKT r => exists a a', v = VPkt a /\ v' = VPkt a' /\ agree_rows r a a'
  | _ => v = v'
  end
with agree_row (r : row) (a a' : attrs) : Prop :=
  match r with
  | RSimple t n CNone =>
      match get a n, get a' n with
      | None, None => True
      | Some v, Some v' => veq t v v'
      | _, _ => False
      end
  | RSimple t n _ => True
  | RBM _ els => forall e, In e els -> be_const e = CNone -> get a' (be_name e) = get a (be_name e)
  | RRES _ => True
  | RTLV _ _ _ cs => agree_codes cs a a'
  end
with agree_rows (r : rows) (a a' : attrs) : Prop :=
  match r with rnil => True | rcons x t => agree_row x a a' /\ agree_rows t a a' end
with agree_codes (cs : codes) (a a' : attrs) : Prop :=
  match cs with cnil => True | ccons _ r t => agree_row r a a' /\ agree_codes t a a' end.

(** Layouts on which decoding always makes progress: an uncounted list has
    elements that occupy at least one byte, TLV items have a header, EX fields
    allow at least one byte.  Every layout in pydecnet satisfies this. *)
Fixpoint safe_ty (t : ty) : Prop :=
  match t with
  | TEX m => (1 <= m)%nat
  | TLIST t' c => safe_ty t' /\ match c with None => solid_ty t' = true | _ => True end
  | TPKT r => safe_rows r
  | _ => True
  end
with safe_row (r : row) : Prop :=
  match r with
  | RSimple t _ _ => safe_ty t
  | RTLV tlen llen _ cs => (1 <= tlen + llen)%nat /\ safe_codes cs
  | _ => True
  end
with safe_rows (r : rows) : Prop :=
  match r with rnil => True | rcons x t => safe_row x /\ safe_rows t end
with safe_codes (cs : codes) : Prop :=
  match cs with cnil => True | ccons _ r t => safe_row r /\ safe_codes t end.
