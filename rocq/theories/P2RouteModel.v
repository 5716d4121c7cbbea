(** Sending on a Phase II node: routing.py 733-784 (Phase2Routing.send) and the table of
    adjacencies, 354-355 and 415-422.  What the circuit does with the packet is in
    InterceptModel. *)
From Verif Require Import Base.

(** An adjacency: its circuit, the neighbour, does the circuit's intercept request
    service of the neighbour (EndnodeIntercept).  The local one (SelfAdj, 106-130) has a circuit without a
    datalink: None. *)
Record adj := mkA { a_circ : option Z; a_node : Z; a_icpt : bool }.
(** A dictionary, in the order of insertion. *)
Definition table := list (Z * adj).
Fixpoint get (t : table) (k : Z) : option adj :=
  match t with [] => None | (x, a) :: r => if x =? k then Some a else get r k end.
Fixpoint put (t : table) (k : Z) (v : adj) : table :=
  match t with [] => [(k, v)] | (x, a) :: r => if x =? k then (x, v) :: r else (x, a) :: put r k v end.
Fixpoint del (t : table) (k : Z) : table :=
  match t with [] => [] | (x, a) :: r => if x =? k then r else (x, a) :: del r k end.
Definition table0 (me : Z) : table := [(me, mkA None me false)].
(** adj_up and adj_down. *)
Inductive event := Up (a : adj) | Down (a : adj).
Definition tstep (t : table) (e : event) : table := match e with Up a => put t (a_node a) a | Down a => del t (a_node a) end.
Definition trun (me : Z) (l : list event) : table := fold_left tstep l (table0 me).

(** Destinations: a node, or a loop node's circuit with its adjacency (loopadj), 764-775. *)
Inductive dest := DNode (n : Z) | DLoop (a : option adj).
(** What becomes of a packet: sent on a circuit to an address, given back to NSP as not
    delivered, or the result False. *)
Inductive outcome := Sent (circ to : Z) | Returned | No.
Definition transmit (a : adj) (to : Z) : res outcome :=
  match a_circ a with Some c => Ok (Sent c to) | None => Err EAttr end.
Definition p2send (me : Z) (t : table) (d : dest) (rqr : bool) : res outcome :=
  match d with
  | DNode n =>
      match get t n with
      | Some a => transmit a n
      | None => match find (fun e => a_icpt (snd e)) t with Some (_, a) => transmit a n | None => Ok No end
      end
  | DLoop (Some a) => if a_node a =? me then transmit a me else if rqr then Ok Returned else Ok No
  | DLoop None => if rqr then Ok Returned else Ok No
  end.
