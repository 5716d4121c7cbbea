(** Model of decnet/timers.py: circular queues at pointer level, the timer
    wheel, and the Timeout work items, with the timer thread and the node
    thread interleaved at every point where the code does not hold the lock. *)
From Verif Require Import Base.

(** Queue objects: wheel slot heads and timers. Identity of Python objects is
    modelled by these names. *)
Inductive obj := Hd (slot : Z) | It (item : Z).
Definition obj_eqb (a b : obj) : bool :=
  match a, b with
  | Hd x, Hd y => x =? y
  | It x, It y => x =? y
  | _, _ => false
  end.
Definition upd {V} (f : obj -> V) (k : obj) (v : V) : obj -> V :=
  fun x => if obj_eqb x k then v else f x.

(** The part of the heap made of Cque objects (timers.py:15-26). *)
Record heap := { nx : obj -> obj; pv : obj -> obj; rv : obj -> Z }.

Definition set_nx h k v := {| nx := upd h.(nx) k v; pv := h.(pv); rv := h.(rv) |}.
Definition set_pv h k v := {| nx := h.(nx); pv := upd h.(pv) k v; rv := h.(rv) |}.
Definition set_rv h k v := {| nx := h.(nx); pv := h.(pv); rv := upd h.(rv) k v |}.

(** timers.py:21-26: freshly constructed objects are self linked, revcount 0. *)
Definition heap0 : heap := {| nx := fun o => o; pv := fun o => o; rv := fun _ => 0 |}.

(** timers.py:38-46 [Cque.add_before], assignment by assignment. *)
Definition add_before (h : heap) (self item : obj) : heap :=
  let h := set_rv h self (h.(rv) self + 1) in
  let h := set_nx h item self in
  let h := set_pv h item (h.(pv) self) in
  let h := set_nx h (h.(pv) self) item in
  let h := set_pv h self item in
  h.

(** timers.py:28-36 [Cque.add_after]. *)
Definition add_after (h : heap) (self item : obj) : heap :=
  let h := set_rv h self (h.(rv) self + 1) in
  let h := set_pv h item self in
  let h := set_nx h item (h.(nx) self) in
  let h := set_pv h (h.(nx) self) item in
  let h := set_nx h self item in
  h.

(** timers.py:48-56 [Cque.remove] followed by [reset] (21-22). *)
Definition remove (h : heap) (self : obj) : heap :=
  let h := set_rv h self (h.(rv) self + 1) in
  let h := set_pv h (h.(nx) self) (h.(pv) self) in
  let h := set_nx h (h.(pv) self) (h.(nx) self) in
  let h := set_nx h self self in
  let h := set_pv h self self in
  h.

(** timers.py:58-62 [Cque.islinked]. *)
Definition islinked (h : heap) (self : obj) : bool := negb (obj_eqb (h.(nx) self) self).

(** Where the timer thread (timers.py:177-211) is. [TIdle]: sleeping in [run];
    [TDrain]: about to evaluate [qh.islinked ()]; [TGrab]: it was linked, about
    to take the lock; [TPost i r]: holding an expired item, about to [addwork]. *)
Inductive thr := TIdle | TDrain | TGrab | TPost (i r : Z).

Record wheel := {
  w_heap : heap;
  w_pos : Z;          (* self.pos *)
  w_size : Z;         (* self.maxtime, number of slots *)
  w_thr : thr;
  w_q : list (Z * Z)  (* node work queue, Timeout items only: (owner, revcount) *)
}.

(** timers.py:130-142. *)
Definition wheel0 (size : Z) : wheel :=
  {| w_heap := heap0; w_pos := 0; w_size := size; w_thr := TIdle; w_q := [] |}.

Inductive op :=
| OStart (i raw : Z)  (* node thread: timers.start (i, timeout), raw = int (timeout / tick) *)
| OStop (i : Z)       (* node thread: timers.stop (i) *)
| OTick               (* timer thread: line 190 *)
| OLoop               (* timer thread: line 202 *)
| OGrab               (* timer thread: lines 203-206 under the lock, and the test 207 *)
| OPost               (* timer thread: line 209 *)
| ODispatch.          (* node thread: main loop takes a Timeout item, lines 119-121 *)

(** Observable events. *)
Inductive ev :=
| VStart (i ticks : Z) | VOverflow (i : Z) | VStop (i : Z)
| VTick | VDrained | VExpire (i : Z) | VPost (i : Z)
| VDeliver (i : Z) | VDrop (i : Z).

Definition set_heap w h := {| w_heap := h; w_pos := w.(w_pos); w_size := w.(w_size);
                              w_thr := w.(w_thr); w_q := w.(w_q) |}.
Definition set_thr w t := {| w_heap := w.(w_heap); w_pos := w.(w_pos); w_size := w.(w_size);
                             w_thr := t; w_q := w.(w_q) |}.

(** One atomic step; [None] when the operation is not enabled in this state
    (the thread is elsewhere, or the work queue holds no Timeout). *)
Definition step (w : wheel) (o : op) : option (wheel * list ev) :=
  match o with
  | OStart i raw =>
      (* timers.py:154-166.  The TypeError test of 157 is a type error in the
         caller and not modelled.  [raw] is int (timeout / tick). *)
      let ticks := if raw =? 0 then 1 else raw in
      if ticks >=? w.(w_size) then Some (w, [VOverflow i])
      else
        let pos := (w.(w_pos) + ticks) mod w.(w_size) in
        let h := remove w.(w_heap) (It i) in
        let h := add_before h (Hd pos) (It i) in
        Some (set_heap w h, [VStart i ticks])
  | OStop i =>
      (* timers.py:217-224 *)
      Some (set_heap w (remove w.(w_heap) (It i)), [VStop i])
  | OTick =>
      match w.(w_thr) with
      | TIdle =>
          Some ({| w_heap := w.(w_heap); w_pos := (w.(w_pos) + 1) mod w.(w_size);
                   w_size := w.(w_size); w_thr := TDrain; w_q := w.(w_q) |}, [VTick])
      | _ => None
      end
  | OLoop =>
      match w.(w_thr) with
      | TDrain => if islinked w.(w_heap) (Hd w.(w_pos)) then Some (set_thr w TGrab, [])
                  else Some (set_thr w TIdle, [VDrained])
      | _ => None
      end
  | OGrab =>
      match w.(w_thr) with
      | TGrab =>
          let item := w.(w_heap).(nx) (Hd w.(w_pos)) in
          let h := remove w.(w_heap) item in
          let r := h.(rv) item in
          match item with
          | It i => Some (set_thr (set_heap w h) (TPost i r), [VExpire i])
          | Hd _ => Some (set_thr (set_heap w h) TDrain, [])
          end
      | _ => None
      end
  | OPost =>
      match w.(w_thr) with
      | TPost i r =>
          Some ({| w_heap := w.(w_heap); w_pos := w.(w_pos); w_size := w.(w_size);
                   w_thr := TDrain; w_q := w.(w_q) ++ [(i, r)] |}, [VPost i])
      | _ => None
      end
  | ODispatch =>
      match w.(w_q) with
      | [] => None
      | (i, r) :: q =>
          let w' := {| w_heap := w.(w_heap); w_pos := w.(w_pos); w_size := w.(w_size);
                       w_thr := w.(w_thr); w_q := q |} in
          if r =? w.(w_heap).(rv) (It i) then Some (w', [VDeliver i])
          else Some (w', [VDrop i])
      end
  end.

Fixpoint run (w : wheel) (ops : list op) : option (wheel * list ev) :=
  match ops with
  | [] => Some (w, [])
  | o :: t =>
      match step w o with
      | None => None
      | Some (w1, e1) =>
          match run w1 t with
          | None => None
          | Some (w2, e2) => Some (w2, e1 ++ e2)
          end
      end
  end.
