(** Node addresses, MAC addresses and backoff values: common.py 275-476,
    865-892.  Strings are lists of character codes. *)
From Verif Require Import Base.

(** *** Decimal and hexadecimal numbers *)
Definition is_digit (c : Z) : bool := (48 <=? c) && (c <=? 57).
(** int (s) for a string of decimal digits. *)
Definition int10 (s : list Z) : Z := fold_left (fun acc c => acc * 10 + (c - 48)) s 0.
(** str (v) for v >= 0; [fuel] bounds the number of digits. *)
Fixpoint str10_loop (fuel : nat) (v : Z) (acc : list Z) : list Z :=
  match fuel with
  | O => acc
  | S f => let acc := (48 + v mod 10) :: acc in
           if v / 10 =? 0 then acc else str10_loop f (v / 10) acc
  end.
Definition str10 (v : Z) : list Z := str10_loop (S (Z.to_nat (Z.log2 v))) v [].

(** *** The regular expression _nodeid_re (common.py:274):
    [^(?:(\d+)\.)?(\d+)$], where [$] also matches before a final newline.
    Simplification: only the ASCII digits count as \d. *)
Fixpoint span_digits (s : list Z) : list Z * list Z :=
  match s with
  | c :: t => if is_digit c then let (d, r) := span_digits t in (c :: d, r) else ([], s)
  | [] => ([], [])
  end.
Definition at_end (s : list Z) : bool :=
  match s with [] => true | [c] => c =? 10 | _ => false end.
Definition nodeid_re (s : list Z) : option (option (list Z) * list Z) :=
  let (d1, r1) := span_digits s in
  match d1 with
  | [] => None
  | _ => if at_end r1 then Some (None, d1)
         else match r1 with
              | 46 :: r => let (d2, r2) := span_digits r in
                           match d2 with
                           | [] => None
                           | _ => if at_end r2 then Some (Some d1, d2) else None
                           end
              | _ => None
              end
  end.

(** HIORD (common.py): the DECnet high order MAC address bytes. *)
Definition hiord : list Z := [170; 0; 4; 0].

(** Arguments of Nodeid.__new__ (279-332): a string, an integer (optionally a
    pair), a Macaddr, or something convertible to bytes. *)
Inductive nid_arg := NStr (s : list Z) | NInt (s : Z) (id2 : option Z) | NMac (m : list Z) | NBytes (b : list Z).

(** 326-331: range check, default area, result. *)
Definition nid_finish (a n area : Z) (wild : bool) : res Z :=
  if (63 <? a) || (1023 <? n) || ((n =? 0) && negb (a =? 0) && negb wild) then Err EValue
  else let a := if a =? 0 then area else a in Ok (Z.shiftl a 10 + n).
Definition nodeid (x : nid_arg) (wild : bool) (area : Z) : res Z :=
  match x with
  | NStr s =>
      match nodeid_re s with
      | None => Err EValue
      | Some (None, n) => let v := int10 n in nid_finish (v / 1024) (v mod 1024) area wild
      | Some (Some a, n) => nid_finish (int10 a) (int10 n) area wild
      end
  | NInt v None => nid_finish (v / 1024) (v mod 1024) area wild
  | NInt a (Some n) => nid_finish a n area wild
  | NMac m =>
      if negb (leqb (upto 4 m) hiord) then Err EValue
      else let v := le_dec (from 4 m) in
           if (v mod 1024 =? 0) || (v / 1024 =? 0) then Err EValue
           else nid_finish (v / 1024) (v mod 1024) area wild
  | NBytes b =>
      if negb (zlen b =? 2) then Err EDecode
      else let v := le_dec b in
           if (v mod 1024 =? 0) && negb wild then Err EDecode
           else nid_finish (v / 1024) (v mod 1024) area wild
  end.
(** Nodeid.decode, encode, area, tid, __str__ (334-358). *)
Definition nid_decode (buf : list Z) : res (Z * list Z) :=
  let* _ := require buf 2 in
  let* v := nodeid (NBytes (upto 2 buf)) false 0 in Ok (v, from 2 buf).
Definition nid_encode (v : Z) : res (list Z) := to_bytes 2 v.
Definition nid_area (v : Z) : Z := Z.shiftr v 10.
Definition nid_tid (v : Z) : Z := Z.land v 1023.
Definition nid_str (v : Z) : list Z :=
  if v / 1024 =? 0 then str10 (v mod 1024) else str10 (v / 1024) ++ [46] ++ str10 (v mod 1024).

(** *** NiceNode (364-411): node address, name, executor flag.  Names are
    latin1 strings, so one byte per character. *)
Definition nicenode_encode (v : Z) (name : list Z) (executor : bool) : res (list Z) :=
  let* a := nid_encode v in
  let l := zlen name + (if executor then 128 else 0) in
  let* lb := to_bytes 1 l in
  Ok (a ++ lb ++ name).
Definition nicenode_decode (b : list Z) : res ((Z * list Z * bool) * list Z) :=
  let n := le_dec (upto 2 b) in
  match nth_error b 2 with
  | None => Err EIndex
  | Some ln =>
      let ebit := negb (Z.land ln 128 =? 0) in
      let ln := Z.land ln 127 in
      let name := upto ln (from 3 b) in
      let* v := nodeid (NInt n None) false 0 in
      Ok ((v, name, ebit), from (3 + ln) b)
  end.

(** *** Macaddr (413-476) *)
Definition hexval (c : Z) : option Z :=
  if (48 <=? c) && (c <=? 57) then Some (c - 48)
  else if (97 <=? c) && (c <=? 102) then Some (c - 87)
  else if (65 <=? c) && (c <=? 70) then Some (c - 55)
  else None.
(** int (s, 16).  Simplification: sign, underscores, surrounding blanks and the
    0x prefix, which Python accepts, are taken as errors. *)
Definition int16 (s : list Z) : res Z :=
  match s with
  | [] => Err EValue
  | _ => fold_left (fun acc c => let* a := acc in match hexval c with Some d => Ok (a * 16 + d) | None => Err EValue end) s (Ok 0)
  end.
(** _mac_re.split: split at every "-" or ":". *)
Fixpoint mac_split (s : list Z) : list (list Z) :=
  match s with
  | [] => [[]]
  | c :: t => if (c =? 45) || (c =? 58) then [] :: mac_split t
              else match mac_split t with h :: r => (c :: h) :: r | [] => [[c]] end
  end.
Fixpoint mac_bytes (l : list (list Z)) : res (list Z) :=
  match l with
  | [] => Ok []
  | f :: t => let* v := int16 f in let* r := mac_bytes t in
              if (0 <=? v) && (v <? 256) then Ok (v :: r) else Err EValue
  end.
Definition mac_of_str (s : list Z) : res (list Z) :=
  let bl := mac_split s in
  if Nat.eqb (length bl) 1 then
    let* v := int16 s in let* b := to_bytes 6 v in Ok (rev b)
  else if negb (Nat.eqb (length bl) 6) then
    match nodeid_re s with
    | Some _ =>
        let* v := nodeid (NStr s) false 0 in
        if nid_area v =? 0 then Err EValue else let* b := nid_encode v in Ok (hiord ++ b)
    | None => Err EValue
    end
  else mac_bytes bl.
Definition mac_of_nodeid (v : Z) : res (list Z) := let* b := nid_encode v in Ok (hiord ++ b).
Definition hexdigit (d : Z) : Z := if d <? 10 then 48 + d else 87 + d.
Definition hex2 (b : Z) : list Z := [hexdigit (b / 16); hexdigit (b mod 16)].
(** __str__: six two digit groups separated by dashes. *)
Fixpoint mac_str (m : list Z) : list Z :=
  match m with
  | [] => []
  | [b] => hex2 b
  | b :: t => hex2 b ++ [45] ++ mac_str t
  end.

(** *** Backoff (865-892) *)
Record backoff := { low : Z; high : Z; current : Z; tries : Z }.
Definition backoff_init (a : Z) (b : option Z) : res backoff :=
  let (l, h) := match b with None => (1, a) | Some h => (a, h) end in
  if (l <? h) && (0 <? l) then Ok {| low := l; high := h; current := l; tries := 0 |} else Err EAssert.
Definition backoff_next (b : backoff) : backoff * Z :=
  ({| low := low b; high := high b; current := Z.min (current b * 2) (high b); tries := tries b + 1 |}, current b).
Definition backoff_reset (b : backoff) : backoff :=
  {| low := low b; high := high b; current := low b; tries := 0 |}.
