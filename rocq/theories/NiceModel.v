(** Model of NICE (network management) parameter coding,
    decnet/nice_coding.py.

    Simplifications: an item is the value object the code holds in a packet
    attribute, so the attribute name and the display strings are left out; the
    items to encode are given in the order the code would visit them
    (nice_coding.py:660-695: sorted by number, then unknown ones); subclasses
    that only change formatting (DUNode, CMNode, CMVersion, CMProc, 764-835)
    are identified with the class of the same type code, which has the same
    coding. *)
From Verif Require Import Base PacketModel.

(** Integer types DU, DS, H, O (nice_coding.py:226-280) and C (321-330). *)
Inductive ikind := KDU | KDS | KH | KO | KC.
Definition ibase (k : ikind) : Z :=
  match k with KDU => 0 | KDS => 16 | KH => 32 | KO => 48 | KC => 128 end.
Definition isigned (k : ikind) : bool := match k with KDS => true | _ => false end.

(** Parameter values; [NInt k n z] has n bytes, NAI 282-296, NHI 298-319,
    NCM 343-391. *)
Inductive nval :=
| NInt (k : ikind) (n : Z) (z : Z)
| NAI (l : list Z)
| NHI (l : list Z)
| NCM (l : list nval).

(** Classes in the index by type code. *)
Inductive ncls := CInt (k : ikind) (n : Z) | CAI | CHI | CCM (n : Z) | CCtr (n : Z) | CCtm (n : Z).

(** A data item: parameter number and value, or a counter (432-513). *)
Inductive item :=
| IPar (p : Z) (v : nval)
| ICtr (p n v : Z)
| ICtm (p n map v : Z).

(** DU1.encode without the type code, 231-235. *)
Definition int_enc (k : ikind) (n z : Z) : res (list Z) :=
  if isigned k then signed_enc (Z.to_nat n) z else to_bytes (Z.to_nat n) z.

(** common.py [byte]: bytes ((x,)), ValueError outside 0..255. *)
Definition pybyte (x : Z) : res (list Z) := if byte_okb x then Ok [x] else Err EValue.

(** encode methods, type code first. *)
Fixpoint nv_enc (v : nval) : res (list Z) :=
  match v with
  | NInt k n z =>
      let* c := pybyte (ibase k + n) in
      let* b := int_enc k n z in Ok (c ++ b)
  | NAI l =>
      if forallb byte_okb l then let* n := pybyte (zlen l) in Ok (64 :: n ++ l) else Err EValue
  | NHI l => let* n := pybyte (zlen l) in Ok (32 :: n ++ l)
  | NCM l =>
      let* b := (fix go l := match l with
                             | [] => Ok []
                             | x :: t => let* b := nv_enc x in let* r := go t in Ok (b ++ r)
                             end) l in
      let* c := pybyte (192 + zlen l) in Ok (c ++ b)
  end.

(** CTR1.encode 446-448 and Map.encode 490-493; codes and maxval 433-436,
    506-520. *)
Definition ctr_code (n : Z) : Z := if n =? 1 then 40960 else if n =? 2 then 49152 else 57344.
Definition ctm_code (n : Z) : Z := if n =? 1 then 45056 else if n =? 2 then 53248 else 61440.
Definition ctr_max (n : Z) : Z := if n =? 1 then 255 else if n =? 2 then 65535 else 4294967295.

Definition item_enc (resp : bool) (i : item) : res (list Z) :=
  match i with
  | IPar p v =>
      let* pb := to_bytes 2 p in
      let* e := nv_enc v in
      Ok (pb ++ if resp then e else from 1 e)
  | ICtr p n v =>
      let* pb := to_bytes 2 (Z.lor p (ctr_code n)) in
      let* vb := to_bytes (Z.to_nat n) (Z.min v (ctr_max n)) in
      Ok (pb ++ vb)
  | ICtm p n m v =>
      let* pb := to_bytes 2 (Z.lor p (ctm_code n)) in
      let* mb := to_bytes 2 m in
      let* vb := to_bytes (Z.to_nat n) (Z.min v (ctr_max n)) in
      Ok (pb ++ mb ++ vb)
  end.

(** NICE.encode, 660-695. *)
Fixpoint nice_enc (resp : bool) (l : list item) : res (list Z) :=
  match l with
  | [] => Ok []
  | i :: t => let* b := item_enc resp i in let* r := nice_enc resp t in Ok (b ++ r)
  end.

(** findclass (packet.py:680-697) and NiceType.defaultclass (114-140). *)
Definition find_class (code : Z) : res ncls :=
  if code =? 64 then Ok CAI
  else if code =? 32 then Ok CHI
  else if code =? 40960 then Ok (CCtr 1)
  else if code =? 49152 then Ok (CCtr 2)
  else if code =? 57344 then Ok (CCtr 4)
  else if code =? 45056 then Ok (CCtm 1)
  else if code =? 53248 then Ok (CCtm 2)
  else if code =? 61440 then Ok (CCtm 4)
  else if negb (Z.land code 32768 =? 0) then Err EDecode
  else
    let n := Z.land code (if Z.land code 128 =? 0 then 15 else 31) in
    if n =? 0 then Err EDecode
    else
      let b := code - n in
      if b =? 0 then Ok (CInt KDU n)
      else if b =? 16 then Ok (CInt KDS n)
      else if b =? 32 then Ok (CInt KH n)
      else if b =? 48 then Ok (CInt KO n)
      else if b =? 128 then Ok (CInt KC n)
      else if b =? 192 then Ok (CCM n)
      else Err EDecode.

(** DU1.decode, 237-246. *)
Definition int_dec (k : ikind) (n : Z) (b : list Z) : res (Z * list Z) :=
  let f := upto n b in
  if zlen f <? n then Err EDecode
  else Ok (if isigned k then le_dec_signed (Z.to_nat n) f else le_dec f, from n b).

(** AI.decode and HI.decode, 289-296, 312-319. *)
Definition img_dec (b : list Z) : res (list Z * list Z) :=
  match b with
  | [] => Err EDecode
  | l :: t => if zlen b <? l + 1 then Err EDecode else Ok (upto l t, from l t)
  end.

(** Value decode for non-CM classes; counters are handled at item level. *)
Definition flat_dec (c : ncls) (b : list Z) : res (nval * list Z) :=
  match c with
  | CInt k n => let* (z, r) := int_dec k n b in Ok (NInt k n z, r)
  | CAI => let* (l, r) := img_dec b in Ok (NAI l, r)
  | CHI => let* (l, r) := img_dec b in Ok (NHI l, r)
  | CCM _ => Err EType (* called with vlist in place of the code: [() & 0x1f] *)
  | CCtr _ | CCtm _ => Err EType (* no one byte code leads here *)
  end.

(** CM1.decode, 364-377. *)
Fixpoint cm_dec (n : nat) (b : list Z) : res (list nval * list Z) :=
  match n with
  | O => Ok ([], b)
  | S m =>
      match b with
      | [] => Err EDecode
      | code :: t =>
          let* c := find_class code in
          let* (v, r) := flat_dec c t in
          let* (l, r') := cm_dec m r in
          Ok (v :: l, r')
      end
  end.

Definition item_dec (c : ncls) (p : Z) (b : list Z) : res (item * list Z) :=
  match c with
  | CCM n => let* (l, r) := cm_dec (Z.to_nat n) b in Ok (IPar p (NCM l), r)
  | CCtr n => let* (z, r) := int_dec KDU n b in Ok (ICtr p n z, r)
  | CCtm n =>
      if zlen b <? n + 2 then Err EDecode
      else let* (z, r) := int_dec KDU n (from 2 b) in
           Ok (ICtm p n (le_dec (upto 2 b)) z, r)
  | _ => let* (v, r) := flat_dec c b in Ok (IPar p v, r)
  end.

(** decodepnum, 723-760, for a response.  The parameter class only selects
    among classes with the same type code. *)
Definition pnum_dec (b : list Z) : res (Z * ncls * list Z) :=
  let param := le_dec (upto 2 b) in
  let* (code, r) :=
    if negb (Z.land param 32768 =? 0) then Ok (Z.land param 61440, from 2 b)
    else match from 2 b with [] => Err EIndex | c :: t => Ok (c, t) end in
  let* c := find_class code in
  Ok (Z.land param 4095, c, r).

(** NICE.decode of a response, 698-720.  Each item takes at least two bytes. *)
Fixpoint nice_dec (fuel : nat) (tol : bool) (b : list Z) : res (list item) :=
  match b, fuel with
  | [], _ => Ok []
  | _, O => Err EDiverge
  | _, S f =>
      if zlen b <? 3 then (if tol then Ok [] else Err EDecode)
      else
        let* (p, c, r) := pnum_dec b in
        let* (i, r') := item_dec c p r in
        let* l := nice_dec f tol r' in
        Ok (i :: l)
  end.
Definition nice_decode (tol : bool) (b : list Z) : res (list item) := nice_dec (length b) tol b.

(** decodepnum for a request, 723-760: no type codes, the class comes from the
    parameter table [pd]; a counter number or an unknown number is refused (no
    counters appear in request tables).  CM classes are called with code None,
    a TypeError. *)
Fixpoint req_dec (fuel : nat) (tol : bool) (pd : Z -> option ncls) (b : list Z) : res (list item) :=
  match b, fuel with
  | [], _ => Ok []
  | _, O => Err EDiverge
  | _, S f =>
      if zlen b <? 3 then (if tol then Ok [] else Err EDecode)
      else
        let param := le_dec (upto 2 b) in
        let p := Z.land param 36863 in
        match pd p with
        | None => Err EDecode
        | Some c =>
            let* (v, r) := flat_dec c (from 2 b) in
            let* l := req_dec f tol pd r in
            Ok (IPar p v :: l)
        end
  end.
Definition req_decode (tol : bool) (pd : Z -> option ncls) (b : list Z) := req_dec (length b) tol pd b.
