(** The memory log handler and the packet dump: logging.py 116-204. *)
From Verif Require Import Base AddrModel.

(** * DnMemoryHandler *)
(** A record: which it is, its level, whether it has exception information. *)
Record rec := mkRec { r_id : Z; r_level : Z; r_exc : bool }.
(** The handler with a target; [h_out] is what the target has been given. *)
Record handler := mkH { h_buf : list rec; h_bypass : bool; h_out : list rec }.
Definition h0 : handler := mkH [] false [].
(** collections.deque (maxlen = cap).append: the oldest are dropped. *)
Definition push (cap : nat) (b : list rec) (r : rec) : list rec :=
  let b := b ++ [r] in skipn (length b - cap) b.
(** flush_needed, 167-169. *)
Definition flush_needed (lim : Z) (r : rec) : bool := (lim <=? r_level r) || r_exc r.
(** flush, 171-178: everything in the buffer, from the left. *)
Definition flush (h : handler) : handler := mkH [] (h_bypass h) (h_out h ++ h_buf h).
(** emit, 157-165. *)
Definition emit (cap : nat) (lim : Z) (h : handler) (r : rec) : handler :=
  if h_bypass h then mkH (h_buf h) true (h_out h ++ [r])
  else let h := mkH (push cap (h_buf h) r) false (h_out h) in
       if flush_needed lim r then flush h else h.
(** set_bypass, 152-155. *)
Definition set_bypass (h : handler) (b : bool) : handler := mkH (if b then [] else h_buf h) b (h_out h).
Inductive act := ALog (r : rec) | AFlush | ABypass (b : bool).
Definition lstep (cap : nat) (lim : Z) (h : handler) (a : act) : handler :=
  match a with ALog r => emit cap lim h r | AFlush => flush h | ABypass b => set_bypass h b end.
Definition lrun (cap : nat) (lim : Z) (l : list act) : handler := fold_left (lstep cap lim) l h0.

(** * dump_packet, 180-204 *)
Definition hexd (d : Z) : Z := if d <? 10 then 48 + d else 87 + d.
(** The two characters of a column, 187-196. *)
Definition col_hi (p : list Z) (k : nat) : Z := match nth_error p k with Some b => hexd (b / 16) | None => 32 end.
Definition col_lo (p : list Z) (k : nat) : Z := match nth_error p k with Some b => hexd (b mod 16) | None => 32 end.
Definition col (p : list Z) (k : nat) : list Z := [col_hi p k; col_lo p k].
(** str.join. *)
Fixpoint join (sep : Z) (l : list (list Z)) : list Z :=
  match l with [] => [] | [x] => x | x :: t => x ++ sep :: join sep t end.
(** {:04x} of the offset: at least four digits. *)
Fixpoint hex_loop (fuel : nat) (v : Z) (acc : list Z) : list Z :=
  match fuel with O => acc | S f => if v =? 0 then acc else hex_loop f (v / 16) (hexd (v mod 16) :: acc) end.
Definition hex4 (v : Z) : list Z :=
  let s := hex_loop (S (Z.to_nat (Z.log2 v))) v [] in repeat 48 (4 - length s) ++ s.
(** One line from offset [ln]; [pr] is str.isprintable of a character below 256. *)
Definition chars (pr : Z -> bool) (p : list Z) (ln : nat) : list Z :=
  flat_map (fun o => match nth_error p (ln + o) with Some b => [if pr b then b else 46] | None => [] end) (seq 0 16).
Definition cols (p : list Z) (ln : nat) : list (list Z) :=
  flat_map (fun o => col p (ln + o) :: (if (o =? 7)%nat then [[]] else [])) (seq 0 16).
Definition dump_line (pr : Z -> bool) (p : list Z) (ln : nat) : list Z :=
  hex4 (Z.of_nat ln) ++ [47; 32] ++ join 32 (cols p ln) ++ [32] ++ chars pr p ln.
(** The lines, before they are joined by newlines. *)
Definition dump (pr : Z -> bool) (p : list Z) : list (list Z) :=
  map (fun k => dump_line pr p (16 * k)) (seq 0 ((length p + 15) / 16)).
