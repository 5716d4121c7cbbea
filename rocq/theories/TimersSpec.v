(** Specification of timers, with no reference to wheels or linked lists: an
    abstract machine that reads the event history. *)
From Verif Require Import Base TimersModel.

(** [armed]: running timers with their absolute expiry tick, oldest start
    first.  [now]: number of ticks so far.  [busy]: the expirations of tick
    [now] are still being processed.  [held]: expired and not yet queued.
    [queue]: queued timeouts.  Timeouts are tagged [true] while no start, stop
    or later expiry of that timer has happened. *)
Record sst := { armed : list (Z * Z); now : Z; busy : bool;
                held : option (Z * bool); queue : list (Z * bool) }.
Definition sst0 := {| armed := []; now := 0; busy := false; held := None; queue := [] |}.

Definition disarm (i : Z) (l : list (Z * Z)) := filter (fun p => negb (fst p =? i)) l.
Definition stale (i : Z) (p : Z * bool) : Z * bool :=
  if fst p =? i then (fst p, false) else p.

Definition sstep (s : sst) (e : ev) : option sst :=
  match e with
  | VStart i t =>
      if 0 <? t then
        Some {| armed := disarm i s.(armed) ++ [(i, s.(now) + t)]; now := s.(now);
                busy := s.(busy); held := option_map (stale i) s.(held);
                queue := map (stale i) s.(queue) |}
      else None
  | VOverflow _ => Some s
  | VStop i =>
      Some {| armed := disarm i s.(armed); now := s.(now); busy := s.(busy);
              held := option_map (stale i) s.(held); queue := map (stale i) s.(queue) |}
  | VTick =>
      (* the next tick starts only when everything due has expired *)
      if negb s.(busy) && forallb (fun p => s.(now) <? snd p) s.(armed) then
        Some {| armed := s.(armed); now := s.(now) + 1; busy := true;
                held := s.(held); queue := s.(queue) |}
      else None
  | VDrained =>
      if s.(busy) && forallb (fun p => s.(now) <? snd p) s.(armed)
         && match s.(held) with None => true | _ => false end then
        Some {| armed := s.(armed); now := s.(now); busy := false;
                held := s.(held); queue := s.(queue) |}
      else None
  | VExpire i =>
      (* only the oldest timer that is due exactly now may expire *)
      match filter (fun p => snd p =? s.(now)) s.(armed), s.(held) with
      | (j, _) :: _, None =>
          if s.(busy) && (i =? j) then
            Some {| armed := disarm i s.(armed); now := s.(now); busy := s.(busy);
                    held := Some (i, true); queue := map (stale i) s.(queue) |}
          else None
      | _, _ => None
      end
  | VPost i =>
      match s.(held) with
      | Some (j, b) =>
          if i =? j then
            Some {| armed := s.(armed); now := s.(now); busy := s.(busy);
                    held := None; queue := s.(queue) ++ [(j, b)] |}
          else None
      | None => None
      end
  | VDeliver i =>
      match s.(queue) with
      | (j, true) :: q =>
          if i =? j then
            Some {| armed := s.(armed); now := s.(now); busy := s.(busy);
                    held := s.(held); queue := q |}
          else None
      | _ => None
      end
  | VDrop i =>
      match s.(queue) with
      | (j, false) :: q =>
          if i =? j then
            Some {| armed := s.(armed); now := s.(now); busy := s.(busy);
                    held := s.(held); queue := q |}
          else None
      | _ => None
      end
  end.

Fixpoint srun (s : sst) (es : list ev) : option sst :=
  match es with
  | [] => Some s
  | e :: t => match sstep s e with None => None | Some s' => srun s' t end
  end.
