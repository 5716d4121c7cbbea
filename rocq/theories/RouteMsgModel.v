(** Routing messages: routing_packets.py 238-470, and how the update process
    builds them: routing.py 1547-1704.

    Field arithmetic on a big endian host is not modelled.  The header fields
    are written out as bytes; they are the layout of CtlHdr (159-167) and
    RoutingMessage (310-311): a flags byte with control = 1 and the type, a two
    byte source and a reserved byte. *)
From Verif Require Import Base.

Definition word_ok (w : Z) : Prop := 0 <= w < 65536.
Definition word_bytes (w : Z) : list Z := [w mod 256; w / 256].
(** array.tobytes; array ("H", ...) raises OverflowError for other numbers. *)
Definition words_enc (l : list Z) : res (list Z) :=
  if forallb (fun w => (0 <=? w) && (w <? 65536)) l then Ok (flat_map word_bytes l) else Err EOverflow.
(** array.frombytes of an even number of bytes. *)
Fixpoint words_dec (b : list Z) : list Z :=
  match b with x :: y :: t => (x + 256 * y) :: words_dec t | _ => [] end.
Definition sum (l : list Z) : Z := fold_right Z.add 0 l.
(** One step of end around carry, done twice everywhere. *)
Definition carry (s : Z) : Z := Z.land s 65535 + Z.shiftr s 16.

(** A segment: startid and entries (241-304). *)
Definition seg : Type := Z * list Z.
Inductive level := L1 | L2.
(** L1Segment.validate 258-263, L2Segment.validate 299-304. *)
Definition seg_invalid (lv : level) (count startid : Z) : bool :=
  match lv with
  | L1 => (1024 <? count + startid) || (count =? 0)
  | L2 => (64 <? count + startid) || (startid =? 0) || (count =? 0)
  end.
(** L1Segment.decode 265-274. *)
Definition seg_dec (lv : level) (a : list Z) : res (seg * list Z) :=
  match a with
  | count :: startid :: t =>
      if seg_invalid lv count startid then Err EDecode
      else Ok ((startid, upto count t), from count t)
  | _ => Err EIndex
  end.
(** LIST.decode without count (packet.py:471-473). *)
Fixpoint segs_dec (fuel : nat) (lv : level) (a : list Z) : res (list seg) :=
  match a, fuel with
  | [], _ => Ok []
  | _, O => Err EDiverge
  | _, S f => let* (s, a) := seg_dec lv a in let* l := segs_dec f lv a in Ok (s :: l)
  end.
(** L1Segment.encode 276-289. *)
Definition seg_enc (s : seg) : res (list Z) :=
  let* c := to_bytes 2 (zlen (snd s)) in
  let* i := to_bytes 2 (fst s) in
  let* e := words_enc (snd s) in Ok (c ++ i ++ e).
Fixpoint segs_enc (l : list seg) : res (list Z) :=
  match l with [] => Ok [] | s :: t => let* a := seg_enc s in let* b := segs_enc t in Ok (a ++ b) end.

Definition flags_of (lv : level) : Z := match lv with L1 => 7 | L2 => 9 end.
(** Packet.encode of the header: only class constants besides srcnode. *)
Definition hdr_enc (lv : level) (src : Z) : res (list Z) := let* s := to_bytes 2 src in Ok (flags_of lv :: s ++ [0]).
(** Ph4RoutingMessage.encode 415-427, initchecksum = 1. *)
Definition ph4_enc (lv : level) (src : Z) (segs : list seg) : res (list Z) :=
  let* b := segs_enc segs in
  let* c := to_bytes 2 (carry (carry (sum (words_dec b) + 1))) in
  let* h := hdr_enc lv src in Ok (h ++ b ++ c).
(** PhaseIIIRouting.encode 373-390. *)
Definition ph3_enc (src : Z) (ents : list Z) : res (list Z) :=
  let* b := words_enc ents in
  let* c := to_bytes 2 (carry (carry (sum ents))) in
  let* h := hdr_enc L1 src in Ok (h ++ b ++ c).

(** The class the packet index gives for the flags byte of the message: L1Routing
    or P34Routing or PhaseIIIRouting, L2Routing.  [rdict] (403, 449, 458, 471). *)
Inductive idxcls := IL1 | IP34 | IPh3 | IL2.
Inductive rmsg := Ph3 (src : Z) (ents : list Z) | Ph4 (lv : level) (src : Z) (segs : list seg).
Inductive fmt := F3 | F4 (lv : level).
Definition rdict (c : idxcls) (s : Z) : option fmt :=
  match c with
  | IL1 => if s =? 65534 then Some (F4 L1) else None
  | IP34 => if s =? 65534 then Some (F4 L1) else if s =? 65535 then Some F3 else None
  | IPh3 => if s =? 65535 then Some F3 else None
  | IL2 => if s =? 65534 then Some (F4 L2) else None
  end.
(** a[-1] = ~a[-1] & 0xffff (332). *)
Definition compl (w : Z) : Z := Z.land (Z.lnot w) 65535.
Definition residue (a : list Z) : Z := carry (carry (sum (removelast a) + compl (last a 0))).
(** The layout of the header: the flags byte must have control = 1, the type and
    pf = 0; ext_type is free. *)
Definition hdr_dec (c : idxcls) (buf : list Z) : res Z :=
  match buf with
  | f :: lo :: hi :: _ :: _ =>
      if (Z.land f 143 =? flags_of (match c with IL2 => L2 | _ => L1 end)) then Ok (lo + 256 * hi) else Err EDecode
  | _ => Err EDecode
  end.
(** RoutingMessage.decode 314-355 on class [c], with decode2 (370, 408-413). *)
Definition rmsg_dec (c : idxcls) (buf : list Z) : res rmsg :=
  let segs := from 4 buf in
  if (zlen segs =? 0) || Z.odd (zlen segs) then Err EDecode
  else
    let a := words_dec segs in
    match rdict c (residue a) with
    | None => Err EDecode
    | Some f =>
        let* src := hdr_dec c buf in
        match f with
        | F3 => Ok (Ph3 src (removelast a))
        | F4 lv => let* l := segs_dec (length a) lv (removelast a) in Ok (Ph4 lv src l)
        end
    end.

(** The generators [entries] (392-402, 429-441): destination, hops and cost seen
    from this side of a circuit of the given cost. *)
Definition entry_of (cost e : Z) : Z * Z := (Z.shiftr e 10 + 1, Z.land e 1023 + cost).
Fixpoint seg_entries (cost i : Z) (l : list Z) : list (Z * (Z * Z)) :=
  match l with [] => [] | e :: t => (i, entry_of cost e) :: seg_entries cost (i + 1) t end.
Definition entries (cost : Z) (m : rmsg) : list (Z * (Z * Z)) :=
  match m with
  | Ph3 _ l => seg_entries cost 1 l
  | Ph4 _ _ l => flat_map (fun s => seg_entries cost (fst s) (snd s)) l
  end.

(** *** Update.buildupdates (routing.py 1634-1704) *)
(** RouteSegEntry (238-239). *)
Definition entry (hops cost : Z) : Z := Z.shiftl hops 10 + cost.
Definition lowid (lv : level) : Z := match lv with L1 => 0 | L2 => 1 end.
(** The variable [seg]: initially the segment class, later None or a segment. *)
Inductive segv := SClass | SNone | SSeg (s : seg).
Record bst := { b_p : option (list seg); b_seg : segv; b_ret : list (list seg); b_prev : Z; b_len : Z; b_srm : list bool }.
Definition at_ (l : list Z) (i : Z) : Z := nth (Z.to_nat i) l 0.
Definition flag (l : list bool) (i : Z) : bool := nth (Z.to_nat i) l false.
Fixpoint clear (n : nat) (l : list bool) : list bool :=
  match l, n with [], _ => [] | _ :: t, O => false :: t | b :: t, S m => b :: clear m t end.
Definition zrange (a b : Z) : list Z := map (fun k => a + Z.of_nat k) (seq 0 (Z.to_nat (b - a))).
(** p.segments.append (seg) when seg is true. *)
Definition close_seg (p : option (list seg)) (s : segv) : res (option (list seg)) :=
  match s with
  | SNone => Ok p
  | SClass => match p with None => Err EAttr | Some l => Err EAttr (* a class in the list: fails in encode *) end
  | SSeg x => match p with None => Err EAttr | Some l => Ok (Some (l ++ [x])) end
  end.
Definition build_step (minhops mincost : list Z) (mtu : Z) (complete : bool) (b : bst) (i : Z) : res bst :=
  if negb (complete || flag (b_srm b) i) then Ok b
  else
    let* (p, ret) :=
      (if mtu <? b_len b then
         let* p := close_seg (b_p b) (b_seg b) in
         match p with Some l => Ok (None, b_ret b ++ [l]) | None => Err EAttr (* None in the list *) end
       else Ok (b_p b, b_ret b)) in
    let srm := clear (Z.to_nat i) (b_srm b) in
    let '(p, sg, len) := match p with
                         | None => ([], SNone, 6)
                         | Some l => (l, b_seg b, b_len b)
                         end in
    let gap := i - b_prev b in
    let* (p, sg, len) :=
      match sg with
      | SNone => Ok (p, SNone, len)
      | SClass => Err EAttr
      | SSeg (st, es) =>
          if 2 <? gap then Ok (p ++ [(st, es)], SNone, len)
          else
            let js := zrange (b_prev b + 1) i in
            Ok (p, SSeg (st, es ++ map (fun j => entry (at_ minhops j) (at_ mincost j)) js), len + 2 * zlen js)
      end in
    let '(st, es, len) := match sg with
                          | SSeg (st, es) => (st, es, len)
                          | _ => (i, [], len + 4)
                          end in
    Ok {| b_p := Some p; b_seg := SSeg (st, es ++ [entry (at_ minhops i) (at_ mincost i)]);
          b_ret := ret; b_prev := i; b_len := len + 2; b_srm := srm |}.
Fixpoint build_loop (minhops mincost : list Z) (mtu : Z) (complete : bool) (b : bst) (is : list Z) : res bst :=
  match is with
  | [] => Ok b
  | i :: t => let* b := build_step minhops mincost mtu complete b i in build_loop minhops mincost mtu complete b t
  end.
(** Phase IV format: the segment lists of the packets, and the new SRM flags. *)
Definition build4 (lv : level) (blk : Z) (minhops mincost : list Z) (srm : list bool) (complete : bool)
  : res (list (list seg) * list bool) :=
  let b0 := {| b_p := None; b_seg := SClass; b_ret := []; b_prev := -999; b_len := 0; b_srm := srm |} in
  let* b := build_loop minhops mincost (blk - 16) complete b0 (zrange (lowid lv) (zlen minhops)) in
  let* p := close_seg (b_p b) (b_seg b) in
  match p with
  | Some ((_ :: _) as l) => Ok (b_ret b ++ [l], b_srm b)
  | _ => Ok (b_ret b, b_srm b)
  end.
(** Phase III format: one packet with all entries from 1 on. *)
Definition build3 (minhops mincost : list Z) : list Z :=
  map (fun i => entry (at_ minhops i) (at_ mincost i)) (zrange 1 (zlen minhops)).
