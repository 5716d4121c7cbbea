(** What network management shows of nodes and areas: node.py 444-502
    (nice_read), nsp.py 450-536 (read_node, nice_read), routing.py 509-616
    (read_node, nice_read), 1303-1322 (reach), 1503-1545 (areas), route_eth.py
    168-189 and route_ptp.py 1008-1031 (nice_read of circuits, for nodes),
    nicepackets.py 316-374 (ReplyDict, NodeReplyDict), 945-948 (match) and
    1118-1158.  A reply is a number (the address of the node, which is also what
    its record is found by) and a record.  Summary, status, characteristics and
    counters are modelled as to which nodes are listed; of the contents those of
    summary and status, and the circuit of a loop node.  Left out: what asking
    adds to the node database (nodeinfo, see NodeDbModel.v), asking for one loop
    node by its name, events. *)
From Verif Require Import Base.

(** An entry of the node database.  A loop node (node.py, LoopNode) is the
    number 0 and has a circuit.  [e_delay] in thousandths of a second. *)
Record ent := mkEnt { e_num : Z; e_name : list Z; e_loop : option (list Z); e_delay : Z; e_used : bool }.
(** An adjacency as routing has it: node, circuit, and its type in NICE's code
    (ntype + 2 for Phase IV; 1 or 0 for Phase III; 2 for Phase II: 548-554). *)
Record adj := mkAdj { a_node : Z; a_circ : list Z; a_type : Z }.
(** An element of oadj: UNREACHABLE, selfadj, an adjacency. *)
Inductive outa := ONone | OSelf | OAdj (a : adj).
(** A circuit and the neighbours that are up on it, with their types in
    NICE's code. *)
Record circ := mkCirc { c_name : list Z; c_lan : bool; c_cost : Z; c_up : list (Z * Z) }.
Inductive kind := KPh2 | KEnd | KL1 | KL2.
Record node := mkNode {
  n_kind : kind; n_me : Z; n_db : list ent; n_conns : list Z; n_circs : list circ;
  n_maxnodes : Z; n_oadj : Z -> outa; n_hops : Z -> Z; n_cost : Z -> Z;
  n_maxarea : Z; n_aoadj : Z -> outa; n_ahops : Z -> Z; n_acost : Z -> Z }.
(** The request: known, active, loop, adjacent, significant nodes; all nodes of
    an area (code -6), all with a number in the area (-7), one node, a node
    by name. *)
Inductive query := QKnown | QActive | QLoop | QAdj | QSig | QArea (a : Z) | QTid (t : Z) | QOne (n : Z) | QName (s : list Z).
Inductive info := ISum | IStat | IChar | ICount.
(** The circuit the request names: none or known circuits, another plural,
    one (578-589). *)
Inductive qual := QuAll | QuPlural | QuCirc (s : list Z).
Record rec := mkRec { r_name : list Z; r_exec : bool; r_state : option Z; r_circ : option (list Z); r_next : option Z; r_hops : option Z; r_cost : option Z;
  r_type : option Z; r_links : option Z; r_delay : option Z; r_loop : option (list Z) }.
Definition resp := list (Z * rec).

Definition area_of (n : Z) : Z := n / 1024.
Definition tid_of (n : Z) : Z := n mod 1024.
Definition sumstat (i : info) : bool := match i with ISum | IStat => true | _ => false end.
Definition is_stat (i : info) : bool := match i with IStat => true | _ => false end.
Definition leqb (a b : list Z) : bool := if list_eq_dec Z.eq_dec a b then true else false.

(** nodeinfo_byid of a number: entries of loop nodes have their circuit as
    key. *)
Definition by_num (db : list ent) (k : Z) : option ent :=
  find (fun e => match e_loop e with None => e_num e =? k | Some _ => false end) db.
(** makeitem, 331-335 and 346-350. *)
Definition fresh (db : list ent) (k : Z) : rec :=
  mkRec (match by_num db k with Some e => e_name e | None => [] end) false None None None None None None None None None.
(** resp[k], changed by [f] (316-323). *)
Fixpoint upd (db : list ent) (d : resp) (k : Z) (f : rec -> rec) : resp :=
  match d with
  | [] => [(k, f (fresh db k))]
  | (k', r) :: t => if k' =? k then (k', f r) :: t else (k', r) :: upd db t k f
  end.
Fixpoint has (d : resp) (k : Z) : bool :=
  match d with [] => false | (k', _) :: t => (k' =? k) || has t k end.

(** * NSP *)
(** The number of connections to a node: destnode == n compares numbers. *)
Definition links (nd : node) (k : Z) : Z := Z.of_nat (length (filter (fun c => c =? k) (n_conns nd))).
Definition shown_delay (d : Z) : Z := let s := d / 1000 in if s =? 0 then 1 else s.
(** read_node, nsp.py 450-487. *)
Definition nsp_node (nd : node) (i : info) (e : ent) (d : resp) : resp :=
  upd (n_db nd) d (e_num e) (fun r =>
    let l := links nd (e_num e) in
    mkRec (e_name e) (r_exec r) (r_state r) (r_circ r) (r_next r) (r_hops r) (r_cost r) (r_type r)
      (if sumstat i then (if l =? 0 then r_links r else Some l) else r_links r)
      (if sumstat i then (if e_delay e =? 0 then r_delay r else Some (shown_delay (e_delay e))) else r_delay r)
      (match i, e_loop e with IChar, Some c => Some c | _, _ => r_loop r end)).
Definition q_known (q : query) : bool := match q with QKnown | QArea _ | QTid _ => true | _ => false end.
(** Is it listed (508-528)? *)
Definition nsp_wants (nd : node) (q : query) (i : info) (e : ent) : bool :=
  if q_known q || ((e_num e =? n_me nd) && match q with QLoop => false | _ => true end) then true
  else match q with
       | QLoop => match e_loop e with Some _ => true | None => false end
       | _ => (match q with QSig => true | _ => false end &&
               ((match i with ICount => true | _ => false end && e_used e) || (sumstat i && negb (e_delay e =? 0)))) ||
              negb (links nd (e_num e) =? 0)
       end.
Definition nsp_read (nd : node) (q : query) (i : info) (d : resp) : resp :=
  match q with
  | QAdj | QName _ => d
  | QOne k => nsp_node nd i (match by_num (n_db nd) k with Some e => e | None => mkEnt k [] None 0 false end) d
  | _ => fold_left (fun d e => if nsp_wants nd q i e then nsp_node nd i e d else d) (n_db nd) d
  end.

(** * Routing *)
Definition set_route (st : Z) (c : list Z) (stat : bool) (hc : option (Z * Z)) (ty : option Z) (next : Z) (r : rec) : rec :=
  mkRec (r_name r) (r_exec r) (Some st) (Some c)
    (if stat then r_next r else Some next)
    (if stat then match hc with Some (h, _) => Some h | None => r_hops r end else r_hops r)
    (if stat then match hc with Some (_, x) => Some x | None => r_cost r end else r_cost r)
    (if stat then match ty with Some t => Some t | None => r_type r end else r_type r)
    (r_links r) (r_delay r) (r_loop r).
Definition set_state (st : Z) (r : rec) : rec :=
  mkRec (r_name r) (r_exec r) (Some st) (r_circ r) (r_next r) (r_hops r) (r_cost r) (r_type r) (r_links r) (r_delay r) (r_loop r).
(** Indexing a list of [n + 1] elements. *)
Definition at_ (n : Z) (f : Z -> outa) (k : Z) : res outa := if k <=? n then Ok (f k) else Err EIndex.
(** read_node, routing.py 509-566, for summary and status.  A Phase II node
    has no oadj. *)
Definition route_node (nd : node) (i : info) (k : Z) (d : resp) : res resp :=
  match n_kind nd with
  | KEnd => Ok d
  | KPh2 => Err EAttr
  | _ =>
      let here := area_of k =? area_of (n_me nd) in
      let* a := if here then at_ (n_maxnodes nd) (n_oadj nd) (tid_of k)
                else match n_kind nd with
                     | KL2 => at_ (n_maxarea nd) (n_aoadj nd) (area_of k)
                     | _ => Ok (n_oadj nd 0)
                     end in
      Ok (match a with
          | OSelf => d
          | ONone => upd (n_db nd) d k (set_state 5)
          | OAdj a => upd (n_db nd) d k (set_route 4 (a_circ a) (is_stat i)
              (if here && negb (tid_of k =? 0) then Some (n_hops nd (tid_of k), n_cost nd (tid_of k)) else None)
              (if k =? a_node a then Some (a_type a) else None) (a_node a))
          end)
  end.
(** nice_read of a circuit for summary or status of nodes; [only] is the one
    node asked for. *)
Definition circ_node (nd : node) (i : info) (c : circ) (only : option Z) (d : resp) : resp :=
  fold_left (fun d '(n, ty) =>
    if match only with Some k => k =? n | None => true end then
      upd (n_db nd) d n (fun r =>
        mkRec (r_name r) (r_exec r) (r_state r) (Some (c_name c)) (if is_stat i then r_next r else Some n)
          (if is_stat i && c_lan c then Some 1 else r_hops r) (if is_stat i && c_lan c then Some (c_cost c) else r_cost r)
          (if is_stat i then Some ty else r_type r) (r_links r) (r_delay r) (r_loop r))
    else d) (c_up c) d.
(** One turn of reach, 1304-1322. *)
Definition reach_one (nd : node) (q : query) (i : info) (qu : option (list Z)) (d : resp) (t : Z) : resp :=
  let k := area_of (n_me nd) * 1024 + t in
  match n_oadj nd t with
  | OSelf => d
  | OAdj a =>
      if match qu with Some s => negb (leqb (a_circ a) s) | None => false end then d
      else upd (n_db nd) d k (set_route 4 (a_circ a) (is_stat i) (Some (n_hops nd t, n_cost nd t)) None (a_node a))
  | ONone => if match q with QKnown => true | _ => false end || has d k then upd (n_db nd) d k (set_state 5) else d
  end.
Definition range1 (n : Z) : list Z := map (fun x => Z.of_nat x) (seq 1 (Z.to_nat n)).
Definition reach (nd : node) (q : query) (i : info) (qu : option (list Z)) (d : resp) : resp :=
  match n_kind nd with KL1 | KL2 => fold_left (reach_one nd q i qu) (range1 (n_maxnodes nd)) d | _ => d end.
(** nice_read, routing.py 571-616, for nodes.  Characteristics only make a
    record of the executor. *)
Definition route_read (nd : node) (q : query) (i : info) (qu : qual) (d : resp) : res resp :=
  match qu with
  | QuPlural => Ok d
  | _ =>
      let cq := match qu with QuCirc s => Some s | _ => None end in
      match i with
      | ICount => Ok d
      | IChar => Ok (match q with
                     | QAdj | QLoop | QName _ => d
                     | QOne k => if k =? n_me nd then upd (n_db nd) d k (fun r => r) else d
                     | _ => upd (n_db nd) d (n_me nd) (fun r => r)
                     end)
      | _ =>
          match q with
          | QName _ => Ok d
          | QOne k =>
              let* d1 := route_node nd i k d in
              Ok (match n_kind nd with KEnd => match n_circs nd with c :: _ => circ_node nd i c (Some k) d1 | [] => d1 end | _ => d1 end)
          | _ =>
              let d1 := match q with
                        | QLoop => d
                        | _ => fold_left (fun d c => if match cq with Some s => leqb (c_name c) s | None => true end then circ_node nd i c None d else d) (n_circs nd) d
                        end in
              Ok (match q with QAdj | QLoop => d1 | _ => reach nd q i cq d1 end)
          end
      end
  end.

(** * The node *)
(** 477-501: the executor. *)
Definition executor (nd : node) (i : info) (d : resp) : resp :=
  if has d (n_me nd) then
    upd (n_db nd) d (n_me nd) (fun r =>
      mkRec (r_name r) true (if sumstat i then Some 0 else r_state r) (r_circ r) (r_next r) (r_hops r) (r_cost r) (r_type r) (r_links r) (r_delay r) (r_loop r))
  else d.
(** Which of the records are sent (945-948). *)
Definition matches (q : query) (k : Z) : bool :=
  match q with QArea a => area_of k =? a | QTid t => tid_of k =? t | _ => true end.
Fixpoint insert (x : Z * rec) (l : resp) : resp :=
  match l with [] => [x] | y :: t => if fst x <=? fst y then x :: l else y :: insert x t end.
Fixpoint sort (l : resp) : resp := match l with [] => [] | x :: t => insert x (sort t) end.
(** NodeReplyDict.sorted, 352-374: every key is a Nodeid, loop nodes too. *)
Definition sorted (me : Z) (q : query) (d : resp) : resp :=
  let d1 := filter (fun x => matches q (fst x)) d in
  filter (fun x => fst x =? me) d1 ++ filter (fun x => negb (fst x =? me)) (sort d1).
(** nodeinfo_byname. *)
Definition by_name (db : list ent) (s : list Z) : option ent := find (fun e => leqb (e_name e) s) db.
Inductive reply := Unknown | Shown (l : resp).
(** nice_read, 444-502: address 0 is the executor, names are looked up.  With
    nothing to show about one node the answer is also Unknown (nml.py
    156-161). *)
Definition show (nd : node) (q : query) (i : info) (qu : qual) : res reply :=
  let q1 := match q with
            | QOne k => if k =? 0 then Some (QOne (n_me nd)) else Some q
            | QName s => match by_name (n_db nd) s with Some e => Some (QOne (e_num e)) | None => None end
            | _ => Some q
            end in
  match q1 with
  | None => Ok Unknown
  | Some q =>
      let* d := route_read nd q i qu (nsp_read nd q i []) in
      let l := sorted (n_me nd) q (executor nd i d) in
      Ok (match q, l with QOne _, [] => Unknown | _, _ => Shown l end)
  end.

(** * Areas, 1503-1545 (level 2 routers) *)
Record arec := mkA { ar_state : Z; ar_circ : option (list Z); ar_next : option Z; ar_dist : option (Z * Z) }.
Definition area_rec (nd : node) (i : info) (a : Z) : arec :=
  match n_aoadj nd a with
  | ONone => mkA 5 None None None
  | OSelf => mkA 4 None (Some (n_me nd)) (if is_stat i then Some (n_ahops nd a, n_acost nd a) else None)
  | OAdj x => mkA 4 (Some (a_circ x)) (Some (a_node x)) (if is_stat i then Some (n_ahops nd a, n_acost nd a) else None)
  end.
(** All areas, or one. *)
Definition show_areas (nd : node) (i : info) (one : option Z) : list (Z * arec) :=
  if negb (sumstat i) then [] else
  match one with
  | None => flat_map (fun a => match n_aoadj nd a with ONone => [] | _ => [(a, area_rec nd i a)] end) (range1 (n_maxarea nd - 1))
  | Some a => if (0 <? a) && (a <=? n_maxarea nd) then [(a, area_rec nd i a)] else []
  end.
