(** Model of pydecnet/crc.py.  Registers and polynomials are integers as in the
    code; table lookups carry the IndexError. *)
From Verif Require Import Base.

(** crc.py:46-51 [_reverse]. *)
Fixpoint reverse_loop (n : nat) (ret value : Z) : Z :=
  match n with
  | O => ret
  | S m => reverse_loop m (Z.lor (Z.shiftl ret 1) (Z.land value 1)) (Z.shiftr value 1)
  end.
Definition reverse (value width : Z) : Z := reverse_loop (Z.to_nat width) 0 value.

(** crc.py:64-68, the inner loop of [_maketable]. *)
Definition shift_bit (poly i : Z) : Z :=
  if Z.land i 1 =? 0 then Z.shiftr i 1 else Z.lxor (Z.shiftr i 1) poly.
Fixpoint iter {A} (n : nat) (f : A -> A) (x : A) : A :=
  match n with O => x | S m => iter m f (f x) end.

(** crc.py:53-72 [_maketable]. *)
Definition maketable (poly width : Z) (reflect : bool) : list Z :=
  let rpoly := reverse poly width in
  map (fun i0 => let i := Z.of_nat i0 in
                 let i := if reflect then i else reverse i 8 in
                 let i := iter 8 (shift_bit rpoly) i in
                 if reflect then i else reverse i width)
      (seq 0 256).

(** The class attributes set by the metaclass, crc.py:100-108. *)
Record crc := {
  width : Z; cpoly : Z; initial : Z; final : Z; reversed : bool; crctable : list Z }.
Definition crcmask (k : crc) : Z := Z.shiftl 1 (width k) - 1.

(** Indexing a list with a non-negative index. *)
Definition index (t : list Z) (i : Z) : res Z :=
  if i <? 0 then Err EIndex else
  match nth_error t (Z.to_nat i) with Some v => Ok v | None => Err EIndex end.

(** crc.py:267-294, one iteration of each update loop. *)
Definition upd_forward (k : crc) (c b : Z) : res Z :=
  let* t := index (crctable k) (Z.lxor (Z.shiftr c (width k - 8)) b) in
  Ok (Z.lxor t (Z.land (Z.shiftl c 8) (crcmask k))).
Definition upd_reversed (k : crc) (c b : Z) : res Z :=
  let* t := index (crctable k) (Z.lxor (Z.land c 255) b) in
  Ok (Z.lxor t (Z.shiftr c 8)).
Definition upd_short_forward (k : crc) (c b : Z) : res Z :=
  index (crctable k) (Z.lxor (Z.land (Z.shiftl c (8 - width k)) 255) b).
Definition upd_short_reversed (k : crc) (c b : Z) : res Z :=
  index (crctable k) (Z.lxor c b).
(** crc.py:115-124: the choice of update method. *)
Definition upd_byte (k : crc) : Z -> Z -> res Z :=
  if reversed k then (if width k <=? 8 then upd_short_reversed k else upd_reversed k)
  else (if width k <=? 8 then upd_short_forward k else upd_forward k).
Fixpoint update (k : crc) (c : Z) (data : list Z) : res Z :=
  match data with
  | [] => Ok c
  | b :: t => let* c := upd_byte k c b in update k c t
  end.

(** int.to_bytes (n, "big"). *)
Definition to_bytes_be (n : nat) (v : Z) : res (list Z) :=
  let* l := to_bytes n v in Ok (rev l).

(** crc.py:238-258, the bits after the last whole byte. *)
Fixpoint bits_rev (n : nat) (p b v : Z) : Z :=
  match n with
  | O => v
  | S m => let v' := if Z.land (Z.lxor b v) 1 =? 0 then Z.shiftr v 1 else Z.lxor (Z.shiftr v 1) p in
           bits_rev m p (Z.shiftr b 1) v'
  end.
Fixpoint bits_fwd (k : crc) (n : nat) (i b v : Z) : Z :=
  match n with
  | O => v
  | S m =>
      let v' := if Z.land (Z.lxor (Z.shiftr b (7 - i)) (Z.shiftr v (width k - 1))) 1 =? 0
                then Z.shiftl v 1 else Z.lxor (Z.shiftl v 1) (cpoly k) in
      bits_fwd k m (i + 1) b (Z.land v' (crcmask k))
  end.
(** crc.py:209-259 [update_bits] with bytes data. *)
Definition update_bits_bytes (k : crc) (c : Z) (data : list Z) (bits : Z) : res Z :=
  let by_ := bits / 8 in
  let bi := bits mod 8 in
  let tb := (bits + 7) / 8 in
  if zlen data <? tb then Err EValue
  else if bi =? 0 then update k c data
  else
    let* v := update k c (upto by_ data) in
    let* b := index data by_ in
    if reversed k then
      let* p := index (crctable k) 128 in
      Ok (bits_rev (Z.to_nat bi) p b v)
    else Ok (bits_fwd k (Z.to_nat bi) 0 b v).
(** [update_bits] with an int, crc.py:220-227. *)
Definition update_bits_int (k : crc) (c data bits : Z) : res Z :=
  let bi := bits mod 8 in
  let tb := Z.to_nat ((bits + 7) / 8) in
  let* d := if reversed k then to_bytes tb data
            else to_bytes_be tb (if bi =? 0 then data else Z.shiftl data (8 - bi)) in
  update_bits_bytes k c d bits.

(** crc.py:184-187 [value]. *)
Definition value (k : crc) (c : Z) : Z := Z.lxor c (final k).

(** crc.py:189-201 [__bytes__]: the left-aligned [v] is computed and then not
    used. *)
Definition crc_bytes (k : crc) (c : Z) : res (list Z) :=
  let widthb := width k / 8 in
  let n := Z.to_nat (if width k mod 8 =? 0 then widthb else widthb + 1) in
  if reversed k then to_bytes n (value k c) else to_bytes_be n (value k c).

(** crc.py:79-138: class creation.  [poly] as an int with explicit or guessed
    width; ValueError when it does not fit; RuntimeError (here EAssert) when
    the two samples give different check values. *)
Definition guess_width (poly : Z) : Z :=
  if poly <? 2 ^ 8 then 8 else if poly <? 2 ^ 16 then 16 else if poly <? 2 ^ 32 then 32 else 64.
Definition check_value (k : crc) (data : list Z) : res Z :=
  let* c := update k (initial k) data in
  let* c := update_bits_int k c (value k c) (width k) in
  Ok (value k c).
Definition make_crc (poly width_ : Z) (initial_ final_ : option Z) (reversed_ : bool) : res (crc * Z) :=
  let w := if width_ =? 0 then guess_width poly else width_ in
  let mask := Z.shiftl 1 w - 1 in
  if mask <? poly then Err EValue
  else
    let pick o := match o with Some v => v | None => mask end in
    let k := {| width := w; cpoly := poly; initial := pick initial_; final := pick final_;
                reversed := reversed_; crctable := maketable poly w reversed_ |} in
    let* g1 := check_value k [0] in
    let* g2 := check_value k [1; 66] in
    if g1 =? g2 then Ok (k, g1) else Err EAssert.
(** Polynomial as a sequence of powers, crc.py:84-90. *)
Fixpoint remove1 (x : Z) (l : list Z) : list Z :=
  match l with [] => [] | y :: t => if x =? y then t else y :: remove1 x t end.
Definition powers_width (l : list Z) : Z := fold_left Z.max l 0.
Definition powers_poly (l : list Z) : Z :=
  fold_left (fun p e => Z.lor p (Z.shiftl 1 e)) (remove1 (powers_width l) l) 0.

(** crc.py:203-207 [good]. *)
Definition good (k : crc) (goodvalue c : Z) : bool := value k c =? goodvalue.

(** ddcmp.py:58: CRC16, poly = (16, 15, 2, 0). *)
Definition crc16_poly : Z := powers_poly [16; 15; 2; 0].
Definition make_crc16 : res (crc * Z) := make_crc crc16_poly (powers_width [16; 15; 2; 0]) (Some 0) (Some 0) true.
