(** Event messages: events.py 24-205 (Event, EventEntityBase), nice_coding.py 49-102 (the
    entities), and the listener modules/evl.py 35-44.  The data after the entity are left
    as bytes (NiceModel). *)
From Verif Require Import Base PacketModel AddrModel.

(** * The time, events.py 158-162, from the microseconds since jbase (1-Jan-1977) *)
Definition DAY : Z := 86400000000.
Definition evt_time (t : Z) : Z * Z * Z :=
  let days := t / DAY in
  let seconds := (t mod DAY) / 1000000 in
  let us := t mod 1000000 in
  (days * 2 + seconds / 43200, seconds mod 43200, us / 1000).
(** The time that __str__ shows, 167-172, in milliseconds since jbase. *)
Definition shown (halfday seconds ms : Z) (absent : bool) : Z :=
  let days := halfday / 2 in
  let hd := halfday mod 2 in
  (days * 86400 + (seconds + hd * 43200)) * 1000 + (if absent then 0 else ms).

(** * The header, _layout 104-117 without the source *)
Record evt := mkEvt { v_console : Z; v_file : Z; v_monitor : Z; v_code : Z; v_class : Z;
                      v_halfday : Z; v_seconds : Z; v_ms : Z; v_absent : Z }.
Definition be (n : Z) (s b : Z) : bme := {| be_name := FN n; be_start := s; be_bits := b; be_const := CNone |}.
(** function is a constant of the class.  The class and the code of an event are constants
    of its Python class; here they are fields. *)
Definition HDR : rows :=
  rcons (RSimple (TB 1) (FN 0) (CRo (VInt 1)))
  (rcons (RBM 1 [be 1 0 1; be 2 1 1; be 3 2 1])
  (rcons (RBM 2 [be 4 0 5; be 5 6 9])
  (rcons (RSimple (TB 2) (FN 6) CNone)
  (rcons (RSimple (TB 2) (FN 7) CNone)
  (rcons (RBM 2 [be 8 0 10; be 9 15 1]) rnil))))).
Definition hattrs (e : evt) : attrs :=
  [(FN 1, VInt (v_console e)); (FN 2, VInt (v_file e)); (FN 3, VInt (v_monitor e)); (FN 4, VInt (v_code e));
   (FN 5, VInt (v_class e)); (FN 6, VInt (v_halfday e)); (FN 7, VInt (v_seconds e)); (FN 8, VInt (v_ms e)); (FN 9, VInt (v_absent e))].
Definition geti (a : attrs) (n : Z) : Z := match get a (FN n) with Some (VInt z) => z | _ => 0 end.
Definition hevt (a : attrs) : evt :=
  mkEvt (geti a 1) (geti a 2) (geti a 3) (geti a 4) (geti a 5) (geti a 6) (geti a 7) (geti a 8) (geti a 9).

(** * The entity.  EStr is a line, logging, circuit or module (1 to 4) or one that is not
    known (defaultclass, 44-57). *)
Inductive entity := ENone | ENode (v : Z) (n : list Z) (ex : bool) | EStr (k : Z) (n : list Z) | EArea (v : Z).
Definition ent_encode (e : entity) : res (list Z) :=
  match e with
  | ENone => Ok [255]
  | ENode v n ex => let* b := nicenode_encode v n ex in Ok (0 :: b)
  | EStr k n => let* b := ascii_enc 255 n in Ok (k :: b)
  | EArea v => let* b := to_bytes 1 v in Ok (5 :: 0 :: b)
  end.
(** decode, 32-39, with instanceindexkey: the first byte finds the class. *)
Definition ent_decode (b : list Z) : res (entity * list Z) :=
  match b with
  | [] => Err EIndex
  | k :: b =>
      if k =? 255 then Ok (ENone, b)
      else if k =? 0 then let* (x, r) := nicenode_decode b in let '(v, n, ex) := x in Ok (ENode v n ex, r)
      else if k =? 5 then match nth_error b 1 with Some v => Ok (EArea v, from 2 b) | None => Err EIndex end
      else let* (n, r) := image_dec 255 b in Ok (EStr k n, r)
  end.

(** * The message *)
Record source := mkSrc { s_id : Z; s_name : list Z; s_ex : bool }.
Definition evt_encode (e : evt) (s : source) (x : entity) (data : list Z) : res (list Z) :=
  let* h := encode HDR (hattrs e) in
  let* b := nicenode_encode (s_id s) (s_name s) (s_ex s) in
  let* c := ent_encode x in
  Ok (h ++ b ++ c ++ data).
(** Event.decode: the class is found by the code word, which is in the first 4 bytes
    (packet.py 333-336, 722-745); an exception in a field is a DecodeError (1055-1059). *)
Definition evt_decode (m : list Z) : res (evt * source * entity * list Z) :=
  let* _ := require m 4 in
  let* (a, m) := decode true HDR m in
  let* (x, m) := atfield (nicenode_decode m) in
  let '(v, n, ex) := x in
  let* (y, m) := atfield (ent_decode m) in
  Ok (hevt a, mkSrc v n ex, y, m).
