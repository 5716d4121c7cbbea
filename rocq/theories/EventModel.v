(** Event lists, filters and the remote sink queue: event_logger.py 24-385. *)
From Verif Require Import Base Dict AddrModel.

(** *** parse_events (event_logger.py:57-99) *)
(** str.split on a comma. *)
Fixpoint split_comma (s : list Z) : list (list Z) :=
  match s with
  | [] => [[]]
  | c :: t => if c =? 44 then [] :: split_comma t
              else match split_comma t with
                   | x :: r => (c :: x) :: r
                   | [] => [[c]]
                   end
  end.
(** The regular expression evt_re (54):
    [(?:(\d+)\.)?(?:(?:(\d+)(?:-(\d+))?)|([*]))$] with re.match.  The result is
    the groups: class, first, last; a star is None for first.  ASCII digits
    only. *)
Definition evt_body (s : list Z) : option (option (list Z) * option (list Z)) :=
  let (d, r) := span_digits s in
  match d, r with
  | [], 42 :: r => if at_end r then Some (None, None) else None
  | [], _ => None
  | _, 45 :: r' => let (d2, r2) := span_digits r' in
                   match d2 with
                   | [] => None
                   | _ => if at_end r2 then Some (Some d, Some d2) else None
                   end
  | _, r => if at_end r then Some (Some d, None) else None
  end.
Definition evt_re (s : list Z) : option (option (list Z) * option (list Z) * option (list Z)) :=
  let (d, r) := span_digits s in
  match d, r with
  | _ :: _, 46 :: r => match evt_body r with Some (a, b) => Some (Some d, a, b) | None => None end
  | _, _ => match evt_body s with Some (a, b) => Some (None, a, b) | None => None end
  end.
(** range (a, b + 1). *)
Definition zrange (a b : Z) : list Z := map (fun i => a + Z.of_nat i) (seq 0 (Z.to_nat (b + 1 - a))).
(** The loop (70-98); [cl] is the current class.  The resulting set is a list. *)
Fixpoint parse_items (cl : option Z) (l : list (list Z)) : res (list (Z * Z)) :=
  match l with
  | [] => Ok []
  | item :: l =>
      match evt_re item with
      | None => Err EValue
      | Some (c, e1, e2) =>
          let* cl := (match c with
                      | Some c => let v := int10 c in if (0 <=? v) && (v <? 512) then Ok v else Err ERange
                      | None => match cl with None => Err EValue | Some cl => Ok cl end
                      end) in
          let* (e1, e2) := (match e1 with
                            | None => Ok (0, 31)
                            | Some d1 =>
                                let e1 := int10 d1 in
                                let* e2 := (match e2 with
                                            | Some d2 => let e2 := int10 d2 in if e2 <=? e1 then Err EValue else Ok e2
                                            | None => Ok e1
                                            end) in
                                if (e1 <? 0) || (31 <? e2) then Err ERange else Ok (e1, e2)
                            end) in
          let* r := parse_items (Some cl) l in
          Ok (map (fun e => (cl, e)) (zrange e1 e2) ++ r)
      end
  end.
(** [known] is the set KNOWN_EVENTS (31-35). *)
Definition parse_events (known : list (Z * Z)) (s : list Z) : res (list (Z * Z)) :=
  if leqb s [42; 46; 42] then Ok known else parse_items None (split_comma s).

(** *** EventFilter (103-208) *)
(** A filter entry: an event code, possibly qualified by an entity; entities
    are numbered. *)
Inductive fentry := FCode (c : Z * Z) | FQual (ent : Z) (c : Z * Z).
Definition code_eqb (a b : Z * Z) : bool := (fst a =? fst b) && (snd a =? snd b).
Definition fentry_eqb (a b : fentry) : bool :=
  match a, b with
  | FCode x, FCode y => code_eqb x y
  | FQual e x, FQual f y => (e =? f) && code_eqb x y
  | _, _ => false
  end.
Definition fmem (f : list fentry) (e : fentry) : bool := existsb (fentry_eqb e) f.
Definition fadd (f : list fentry) (e : fentry) : list fentry := if fmem f e then f else e :: f.
Definition fdiscard (f : list fentry) (e : fentry) : list fentry := filter (fun x => negb (fentry_eqb e x)) f.
(** setfilter (121-136). *)
Definition setfilter (known : list (Z * Z)) (f : list fentry) (events : list (Z * Z)) (entity : option Z)
    (enable : bool) : list fentry :=
  let events := filter (fun e => existsb (code_eqb e) known) events in
  fold_left (fun f e =>
     let e := match entity with Some ent => FQual ent e | None => FCode e end in
     if enable then fadd f e else fdiscard f e) events f.
(** __contains__ for an event with the given entity (None if it has none). *)
Definition passes (f : list fentry) (ent : option Z) (code : Z * Z) : bool :=
  fmem f (FCode code) || match ent with Some e => fmem f (FQual e code) | None => false end.

(** *** EventQueue (39-53) *)
Inductive qitem := Ev (e : Z) | Lost.
(** append; events are numbered, and those written are not themselves
    events_lost events. *)
Definition q_append (limit : Z) (q : list qitem) (e : Z) : res (list qitem) :=
  if limit <=? zlen q then
    match rev q with
    | [] => Err EIndex
    | Lost :: _ => Ok q
    | _ => Ok (q ++ [Lost])
    end
  else Ok (q ++ [Ev e]).

(** *** RemoteSink (270-385) *)
Inductive conn := CNone | CPending | CUp.
Record sink := { sinkconn : conn; sinknode : bool; scport : bool; queue : list qitem }.
Definition sink_init : sink := {| sinkconn := CNone; sinknode := true; scport := true; queue := [] |}.
(** The send loop (315-341).  [ok] gives the outcome of successive send_data
    calls (success once exhausted).  Encoding is assumed to succeed. *)
Fixpoint send_loop (q : list qitem) (ok : list bool) : list qitem * list qitem * bool :=
  match q with
  | [] => ([], [], true)
  | e :: q' =>
      match ok with
      | false :: _ => ([], e :: q', false)
      | _ => let '(s, r, b) := send_loop q' (tl ok) in (e :: s, r, b)
      end
  end.
(** send_events (308-360); [conn_ok] false is UnknownNode from connect. *)
Definition send_events (s : sink) (ok : list bool) (conn_ok : bool) : sink * list qitem :=
  match sinkconn s with
  | CPending => (s, [])
  | CUp => let '(sent, q, b) := send_loop (queue s) ok in
           ({| sinkconn := if b then CUp else CNone; sinknode := sinknode s; scport := scport s; queue := q |}, sent)
  | CNone =>
      if sinknode s && scport s then
        if conn_ok then ({| sinkconn := CPending; sinknode := sinknode s; scport := scport s; queue := queue s |}, [])
        else ({| sinkconn := CNone; sinknode := false; scport := scport s; queue := queue s |}, [])
      else (s, [])
  end.
(** writeevent and dispatch (303-306, 367-385), stop (290-294). *)
Inductive sop :=
| Write (e : Z) (ok : list bool) (conn_ok : bool)
| Retry (ok : list bool) (conn_ok : bool)
| Disconnected
| Accepted (ok : list bool) (conn_ok : bool)
| StopSink.
Definition set_conn (s : sink) (c : conn) : sink :=
  {| sinkconn := c; sinknode := sinknode s; scport := scport s; queue := queue s |}.
Definition sink_step (limit : Z) (s : sink) (o : sop) : res (sink * list qitem) :=
  match o with
  | Write e ok c =>
      let* q := q_append limit (queue s) e in
      Ok (send_events {| sinkconn := sinkconn s; sinknode := sinknode s; scport := scport s; queue := q |} ok c)
  | Retry ok c => Ok (send_events s ok c)
  | Disconnected => Ok (set_conn s CNone, [])
  | Accepted ok c => Ok (send_events (set_conn s CUp) ok c)
  | StopSink => Ok ({| sinkconn := CNone; sinknode := sinknode s; scport := false; queue := queue s |}, [])
  end.
Fixpoint sink_run (limit : Z) (s : sink) (l : list sop) : res (sink * list qitem) :=
  match l with
  | [] => Ok (s, [])
  | o :: l => let* (s, o1) := sink_step limit s o in let* (s, o2) := sink_run limit s l in Ok (s, o1 ++ o2)
  end.
