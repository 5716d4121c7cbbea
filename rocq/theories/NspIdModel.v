(** NSP logical link identifiers: /repo/pydecnet/decnet/nsp.py:289-322, NSP.init_id,
    get_id and ret_id.  The random choices of init_id are arbitrary here. *)
From Verif Require Import Base.

(** init_id 306-309, before the shuffle: entry i of range (1, c) gets a random
    multiple of c below 65536 added ([hs] are the random values, randrange
    (0, 65536, c) gives c * h with c * h < 65536). *)
Fixpoint fresh_ids (c i : Z) (hs : list Z) : list Z :=
  match hs with [] => [] | h :: t => (i + c * h) :: fresh_ids c (i + 1) t end.
(** get_id 311-314: popleft, None if empty. *)
Definition get_id (free : list Z) : option (Z * list Z) := match free with [] => None | i :: t => Some (i, t) end.
(** ret_id 316-318. *)
Definition ret_id (maxconns : Z) (free : list Z) (i : Z) : list Z := free ++ [Z.land (i + maxconns + 1) 65535].

(** The open links, in order of opening, and the free list.  An id is returned
    by Connection.close only (1071-1092), where the connection was just deleted
    from the table of connections (KeyError if it is not there), so only open
    ids are returned. *)
Inductive iop := IOpen | IClose (i : Z).
Fixpoint zremove (x : Z) (l : list Z) : list Z := match l with [] => [] | y :: t => if y =? x then t else y :: zremove x t end.
(** One step: the new state and the id allocated. *)
Definition istep (maxconns : Z) (s : list Z * list Z) (o : iop) : res ((list Z * list Z) * option Z) :=
  let '(open, free) := s in
  match o with
  | IOpen => match get_id free with Some (i, f) => Ok ((open ++ [i], f), Some i) | None => Ok (s, None) end
  | IClose i => if existsb (Z.eqb i) open then Ok ((zremove i open, ret_id maxconns free i), None) else Err EKey
  end.
Fixpoint isteps (maxconns : Z) (s : list Z * list Z) (l : list iop) : res ((list Z * list Z) * list Z) :=
  match l with
  | [] => Ok (s, [])
  | o :: t => let* (s1, r) := istep maxconns s o in let* (s2, rs) := isteps maxconns s1 t in
              Ok (s2, match r with Some i => i :: rs | None => rs end)
  end.
