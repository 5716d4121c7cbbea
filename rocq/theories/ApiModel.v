(** The API server: apiserver.py 18-123 (ApiHandler), 138-151 (names), node.py
    194-234 (register_api, api, end_api), 79-88 and 113-116 (get_api).
    JSON decoding is an input (a function from lines to values), and so are the
    answers of the layers behind the API.  Sending is taken to succeed, and a
    reply is what is given to the encoder. *)
From Verif Require Import Base Dict.

(** JSON values; the numbers are whole.  Strings are lists of characters. *)
Inductive json :=
| JNull | JBool (b : bool) | JNum (n : Z) | JStr (s : list Z)
| JList (l : list json) | JObj (d : list (list Z * json)).
Definition jdict := dict (list Z) json.
(** bool (x). *)
Definition jtrue (j : json) : bool :=
  match j with
  | JNull => false | JBool b => b | JNum n => negb (n =? 0)
  | JStr s => match s with [] => false | _ => true end
  | JList l => match l with [] => false | _ => true end
  | JObj d => match d with [] => false | _ => true end
  end.
(** dict.pop (key, default). *)
Definition jpop (d : jdict) (k : list Z) : option json * jdict := (dget leqb d k, ddel leqb d k).

(** The keys and texts. *)
Definition k_tag : list Z := [116; 97; 103].
Definition k_system : list Z := [115; 121; 115; 116; 101; 109].
Definition k_api : list Z := [97; 112; 105].
Definition k_type : list Z := [116; 121; 112; 101].
Definition k_get : list Z := [103; 101; 116].
Definition k_node : list Z := [110; 111; 100; 101].
Definition k_error : list Z := [101; 114; 114; 111; 114].
Definition k_exception : list Z := [101; 120; 99; 101; 112; 116; 105; 111; 110].
Definition k_nodenames : list Z := [110; 111; 100; 101; 110; 97; 109; 101; 115].
Definition k_bad : list Z := [98; 97; 100].
(** Error texts, by number: "Parse error", "required argument 'system'
    missing", "required argument 'api' missing", "Unknown system name",
    "Unsupported node operation", "Unsupported api", "API exception". *)
Definition t_parse := JNum 1. Definition t_nosys := JNum 2. Definition t_noapi := JNum 3.
Definition t_unksys := JNum 4. Definition t_nodeop := JNum 5. Definition t_unkapi := JNum 6.
Definition t_exc := JNum 7.

(** str.upper; ASCII letters only. *)
Definition upper1 (c : Z) : Z := if (97 <=? c) && (c <=? 122) then c - 32 else c.
Definition upper (s : list Z) : list Z := map upper1 s.

(** A node as the API sees it: the entries of its node database (what get_api
    gives for a node, None for a loop node), the registered names. *)
Record anode := mkNode { n_db : list (option json); n_apis : list (list Z) }.
(** ApiServer.nodes (143), and defnode (144-147). *)
Definition nodes := dict (list Z) anode.
Definition defnode (ns : nodes) : json :=
  match ns with [(n, _)] => JStr n | _ => JNull end.

(** What a layer's API function does: returns a dictionary or None, or raises. *)
Inductive subres := SRet (d : option jdict) | SExn (text : list Z).
(** All the layers: the result of a call, given how many there were before, the
    node, the API, the request type, the tag and the rest of the request. *)
Definition layers := Z -> list Z -> list Z -> json -> option json -> jdict -> subres.

(** A LoopNode's get_api uses an undefined name (115). *)
Fixpoint all_api (l : list (option json)) : res (list json) :=
  match l with
  | [] => Ok []
  | Some j :: t => let* r := all_api t in Ok (j :: r)
  | None :: _ => Err EName
  end.
Definition hashable (j : json) : bool := match j with JList _ | JObj _ => false | _ => true end.
(** A JSON value as a dictionary key: equal to a registered name. *)
Definition is_str (j : json) (s : list Z) : bool := match j with JStr t => leqb t s | _ => false end.
(** Node.api (207-226); [n] counts the calls of layers.  tag is None when absent. *)
Definition node_api (sub : layers) (n : Z) (name : list Z) (nd : anode) (apiname reqtype : json)
    (tag : option json) (args : jdict) : Z * res (option jdict) :=
  if is_str apiname k_node then
    if is_str reqtype k_get then
      (n, let* l := all_api (n_db nd) in Ok (Some [(k_nodenames, JList l)]))
    else (n, Ok (Some [(k_error, t_nodeop); (k_type, reqtype)]))
  else if negb (hashable apiname) then (n, Err EType)
  else match apiname with
       | JStr a =>
           if existsb (leqb a) (n_apis nd) then
             (n + 1, match sub n name a reqtype tag args with
                     | SRet d => Ok d
                     | SExn t => Ok (Some [(k_error, t_exc); (k_exception, JStr t)])
                     end)
           else (n, Ok (Some [(k_error, t_unkapi); (k_api, apiname)]))
       | _ => (n, Ok (Some [(k_error, t_unkapi); (k_api, apiname)]))
       end.

(** A tag null is no tag: `tag is not None`. *)
Definition notnull (t : option json) : option json := match t with Some JNull => None | t => t end.
(** The handler: pending, the local variable ret (None: not set yet), whether
    the loop still runs, calls of layers so far, replies so far. *)
Record handler := mkH {
  a_pending : list Z;
  a_ret : option (option jdict);
  a_open : bool;
  a_calls : Z;
  a_sent : list jdict
}.
Definition handler0 : handler := mkH [] None true 0 [].

(** One round of the loop of handle (43-106) for a line; [dec] is the JSON
    decoder: a value, or the text of its exception.  An exception ends the
    handler's thread. *)
Definition handle_req (ns : nodes) (sub : layers) (calls : Z) (d : jdict)
  : Z * res (option jdict) :=
  let '(tag0, d) := jpop d k_tag in
  let tag := notnull tag0 in
  let '(calls, r) :=
    match d with
    | [] => (calls, Ok (Some (map (fun x => (fst x, JList (map JStr (n_apis (snd x))))) ns)))
    | _ =>
        let '(sys0, d) := jpop d k_system in
        let system := match sys0 with Some s => s | None => defnode ns end in
        let '(api0, d) := jpop d k_api in
        let subsys := match api0 with Some s => s | None => JNull end in
        let '(type0, d) := jpop d k_type in
        let reqtype := match type0 with Some s => s | None => JStr k_get end in
        let go (node : option (list Z * anode)) :=
          if negb (jtrue system) then (calls, Ok (Some [(k_error, t_nosys)]))
          else if negb (jtrue subsys) then (calls, Ok (Some [(k_error, t_noapi)]))
          else match node with
               | None => (calls, Ok (Some [(k_system, system); (k_error, t_unksys)]))
               | Some (name, nd) =>
                   let '(c, r) := node_api sub calls name nd subsys reqtype tag d in
                   (c, let* o := r in
                       match o with
                       | Some (x :: t) => Ok (Some (dset leqb (dset leqb (x :: t) k_system system) k_api subsys))
                       | _ => Ok o
                       end)
               end in
        if jtrue system then
          match system with
          | JStr s => go (match dget leqb ns (upper s) with Some nd => Some (upper s, nd) | None => None end)
          | _ => (calls, Err EAttr)
          end
        else go None
    end in
  (calls, let* o := r in
          match o, tag with
          | Some (x :: l), Some t => Ok (Some (dset leqb (x :: l) k_tag t))
          | _, _ => Ok o
          end).
Definition send_if (ret : option jdict) (sent : list jdict) : list jdict :=
  match ret with Some (x :: l) => sent ++ [x :: l] | _ => sent end.
Definition handle_line (ns : nodes) (sub : layers) (dec : list Z -> json + list Z)
    (h : handler) (line : list Z) : handler :=
  if negb (a_open h) then h else
  let stop := mkH (a_pending h) (a_ret h) false (a_calls h) (a_sent h) in
  match line with
  | [] => stop
  | _ =>
      match dec line with
      | inr e =>
          let ret := Some [(k_exception, JStr e); (k_error, t_parse)] in
          mkH (a_pending h) (Some ret) true (a_calls h) (send_if ret (a_sent h))
      | inl (JObj d) =>
          let '(c, r) := handle_req ns sub (a_calls h) d in
          match r with
          | Ok ret => mkH (a_pending h) (Some ret) true c (send_if ret (a_sent h))
          | Err _ => mkH (a_pending h) (a_ret h) false c (a_sent h)
          end
      | inl (JStr s) =>
          if leqb s k_bad then
            match a_ret h with
            | None => stop
            | Some ret => mkH (a_pending h) (Some ret) true (a_calls h) (send_if ret (a_sent h))
            end
          else stop
      | inl _ => stop
      end
  end.
(** readline (27-35): the lines complete so far, and what remains pending. *)
Fixpoint split_lines (acc l : list Z) : list (list Z) * list Z :=
  match l with
  | [] => ([], acc)
  | c :: t =>
      if c =? 10 then let '(ls, rest) := split_lines [] t in (acc :: ls, rest)
      else split_lines (acc ++ [c]) t
  end.
(** sock.recv returns a piece of data (empty: the client has closed), and the
    handler works until it has to wait again. *)
Definition handler_recv (ns : nodes) (sub : layers) (dec : list Z -> json + list Z)
    (h : handler) (data : list Z) : handler :=
  if negb (a_open h) then h else
  match data with
  | [] => mkH (a_pending h) (a_ret h) false (a_calls h) (a_sent h)
  | _ =>
      let '(ls, rest) := split_lines [] (a_pending h ++ data) in
      let h' := fold_left (handle_line ns sub dec) ls h in
      mkH rest (a_ret h') (a_open h') (a_calls h') (a_sent h')
  end.
Definition handler_run (ns : nodes) (sub : layers) (dec : list Z -> json + list Z)
    (chunks : list (list Z)) : handler := fold_left (handler_recv ns sub dec) chunks handler0.
