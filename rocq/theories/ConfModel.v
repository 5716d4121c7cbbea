(** Configuration files: config.py 77-150, 483-571.  Strings are lists of
    character codes; a file is the list of its lines. *)
From Verif Require Import Base Dict.

(** * Entries (argparse.Namespace), config.py 34-64 and 167-481 *)
(** The value of an attribute.  Simplification: the attribute types that occur
    are None, numbers (also Nodeid and booleans) and strings (also bytes). *)
Inductive cval := VNone | VInt (n : Z) | VStr (s : list Z).
Definition cval_eqb (a b : cval) : bool :=
  match a, b with VNone, VNone => true | VInt x, VInt y => x =? y | VStr x, VStr y => leqb x y | _, _ => false end.
Definition is_none (v : cval) : bool := match v with VNone => true | _ => false end.
(** [if v:] *)
Definition truthy (v : cval) : bool := match v with VNone => false | VInt n => negb (n =? 0) | VStr s => negb (leqb s []) end.
(** What one line parses to: the command and its attributes.  The attributes
    "collection" and "attr", which depend on the command only, are left out. *)
Record entry := mkE { e_attr : list Z; e_fields : dict (list Z) cval }.
(** getattr (e, k, None) *)
Definition field (e : entry) (k : list Z) : cval := match dget leqb (e_fields e) k with Some v => v | None => VNone end.
(** Namespace.__eq__: the dictionaries of attributes are equal. *)
Definition entry_eqb (a b : entry) : bool :=
  forallb (fun kv => match dget leqb (e_fields b) (fst kv) with Some v => cval_eqb (field a (fst kv)) v | None => false end) (e_fields a) &&
  forallb (fun kv => match dget leqb (e_fields a) (fst kv) with Some _ => true | None => false end) (e_fields b).

Definition s_circuit : list Z := [99; 105; 114; 99; 117; 105; 116].
Definition s_logging : list Z := [108; 111; 103; 103; 105; 110; 103].
Definition s_node : list Z := [110; 111; 100; 101].
Definition s_object : list Z := [111; 98; 106; 101; 99; 116].
Definition s_routing : list Z := [114; 111; 117; 116; 105; 110; 103].
Definition s_bridge : list Z := [98; 114; 105; 100; 103; 101].
Definition s_http : list Z := [104; 116; 116; 112].
Definition s_api : list Z := [97; 112; 105].
Definition s_nsp : list Z := [110; 115; 112].
Definition s_session : list Z := [115; 101; 115; 115; 105; 111; 110].
Definition s_system : list Z := [115; 121; 115; 116; 101; 109].
Definition s_name : list Z := [110; 97; 109; 101].
Definition s_id : list Z := [105; 100].
Definition s_type : list Z := [116; 121; 112; 101].
Definition s_number : list Z := [110; 117; 109; 98; 101; 114].
Definition s_sink : list Z := [115; 105; 110; 107; 95; 110; 111; 100; 101].

(** * Collections *)
(** The key of a checkdict: a value, or the pair used for loggers. *)
Definition ckey := list cval.
Fixpoint ckey_eqb (a b : ckey) : bool :=
  match a, b with [], [] => true | x :: a', y :: b' => cval_eqb x y && ckey_eqb a' b' | _, _ => false end.
Definition cdict := dict ckey entry.
(** checkdict.__setitem__ 90-105; [None]: ConflictingEntry. *)
Definition check_set (d : cdict) (k : ckey) (v : entry) : option cdict :=
  match dget ckey_eqb d k with
  | None => Some (dset ckey_eqb d k v)
  | Some prev =>
      if entry_eqb prev v then Some d
      else if existsb (fun kv => let ov := field prev (fst kv) in negb (cval_eqb ov (field v (fst kv))) && negb (is_none ov)) (e_fields prev) then None
      else Some (dset ckey_eqb d k v)
  end.
(** The configuration (Config): a dictionary per collection, the two extra
    dictionaries of Objects, the list of objects, the other elements. *)
Record conf := mkC { circuits : cdict; loggers : cdict; nodes : cdict; ids : cdict; onames : cdict; onums : cdict; objects : list entry; singles : dict (list Z) entry }.
(** The [add] methods 112-150, and setattr for an element that is no
    collection; the flag is false for ConflictingEntry. *)
Definition add (c : conf) (e : entry) : conf * bool :=
  let '(mkC ci lo no id on nu ob si) := c in
  if leqb (e_attr e) s_circuit then
    match check_set ci [field e s_name] e with Some d => (mkC d lo no id on nu ob si, true) | None => (c, false) end
  else if leqb (e_attr e) s_logging then
    match check_set lo [field e s_sink; field e s_type] e with Some d => (mkC ci d no id on nu ob si, true) | None => (c, false) end
  else if leqb (e_attr e) s_node then
    match check_set id [field e s_id] e with
    | None => (c, false)
    | Some id1 => match check_set no [field e s_name] e with Some d => (mkC ci lo d id1 on nu ob si, true) | None => (mkC ci lo no id1 on nu ob si, false) end
    end
  else if leqb (e_attr e) s_object then
    match (if truthy (field e s_name) then check_set on [field e s_name] e else Some on) with
    | None => (c, false)
    | Some on1 =>
        match (if truthy (field e s_number) then check_set nu [field e s_number] e else Some nu) with
        | None => (mkC ci lo no id on1 nu ob si, false)
        | Some nu1 => (mkC ci lo no id on1 nu1 (ob ++ [e]) si, true)
        end
    end
  else (mkC ci lo no id on nu ob (dset leqb si (e_attr e) e), true).

(** * Lines *)
(** str.isspace *)
Definition is_sp (c : Z) : bool :=
  ((9 <=? c) && (c <=? 13)) || ((28 <=? c) && (c <=? 32)) || (c =? 133) || (c =? 160) || (c =? 5760) || ((8192 <=? c) && (c <=? 8202)) ||
  (c =? 8232) || (c =? 8233) || (c =? 8239) || (c =? 8287) || (c =? 12288).
Fixpoint lstrip (l : list Z) : list Z := match l with c :: t => if is_sp c then lstrip t else l | [] => [] end.
(** l.rstrip ("\n").strip () *)
Definition strip (l : list Z) : list Z := rev (lstrip (rev (lstrip l))).
(** The first word and what follows it, without the blanks in between:
    l.split (None, 1) for a line that does not start with a blank. *)
Fixpoint word1 (l : list Z) : list Z * list Z :=
  match l with
  | [] => ([], [])
  | c :: t => if is_sp c then ([], lstrip l) else let '(w, r) := word1 t in (c :: w, r)
  end.
Inductive lkind := LSkip | LFile (fn : list Z) (pre : option (list Z)) | LCmd (l : list Z).
(** The lines 511-526 of scanconfig. *)
Definition classify (pre : option (list Z)) (l : list Z) : lkind :=
  match strip l with
  | [] => LSkip
  | c :: t =>
      if c =? 35 then LSkip
      else
        let l := match pre with Some p => p ++ 32 :: c :: t | None => c :: t end in
        let '(entity, rest) := word1 l in
        match rest with
        | [] => match l with a :: b :: fn => if a =? 64 then LFile (b :: fn) None else LCmd l | _ => LCmd l end
        | a :: b :: fn => if a =? 64 then LFile (b :: fn) (Some entity) else LCmd l
        | _ => LCmd l
        end
  end.

(** os.path.dirname and os.path.join (posixpath). *)
Fixpoint drop_base (r : list Z) : list Z := match r with c :: t => if c =? 47 then r else drop_base t | [] => [] end.
Fixpoint drop_slash (r : list Z) : list Z := match r with c :: t => if c =? 47 then drop_slash t else r | [] => [] end.
Definition dirname (p : list Z) : list Z :=
  let h := drop_base (rev p) in
  if forallb (Z.eqb 47) h then rev h else rev (drop_slash h).
Definition join (a b : list Z) : list Z :=
  if match b with c :: _ => c =? 47 | [] => false end then b
  else match rev a with [] => b | c :: _ => if c =? 47 then a ++ b else a ++ 47 :: b end.
Definition resolve (name fn : list Z) : list Z := join (dirname name) fn.

(** * scanconfig 509-571 *)
(** [fs]: the text files that can be opened.  [parse]: shlex.split and
    configparser.parse_args; [Ok None] for an error message or help, [Err] for
    an exception of shlex.split (which nothing catches). *)
Section Scan.
Variables (fs : list Z -> option (list (list Z))) (parse : list Z -> res (option entry)).

(** One command, 532-547. *)
Definition command (c : conf) (ok : bool) (l : list Z) : res (conf * bool) :=
  let* p := parse l in
  match p with
  | None => Ok (c, false)
  | Some e => let '(c1, good) := add c e in Ok (c1, ok && good)
  end.
(** The loop over the lines of a file named [name]; [sub] scans another file.
    [Err EValue] for a file that cannot be opened. *)
Fixpoint scan_lines (sub : list Z -> option (list Z) -> list (list Z) -> conf -> res (conf * bool)) (name : list Z) (pre : option (list Z))
    (lines : list (list Z)) (c : conf) (ok : bool) : res (conf * bool) :=
  match lines with
  | [] => Ok (c, ok)
  | l :: t =>
      match classify pre l with
      | LSkip => scan_lines sub name pre t c ok
      | LFile fn pre1 =>
          match fs (resolve name fn) with
          | None => Err EValue
          | Some ls => let* (c1, ok1) := sub (resolve name fn) pre1 ls c in scan_lines sub name pre t c1 (ok1 && ok)
          end
      | LCmd l => let* (c1, ok1) := command c ok l in scan_lines sub name pre t c1 ok1
      end
  end.
(** [fuel]: the depth of nesting; EDiverge for RecursionError. *)
Fixpoint scan (fuel : nat) (name : list Z) (pre : option (list Z)) (lines : list (list Z)) (c : conf) : res (conf * bool) :=
  match fuel with
  | O => Err EDiverge
  | S f => scan_lines (scan f) name pre lines c true
  end.

(** Config.__init__ 486-507: empty collections, defaults for the elements that
    need no argument. *)
Definition required : list (list Z) := [s_nsp; s_session; s_system].
Definition default1 (si : res (dict (list Z) entry)) (n : list Z) : res (dict (list Z) entry) :=
  let* si := si in let* p := parse n in match p with Some e => Ok (dset leqb si n e) | None => Ok si end.
Definition empty_conf (si : dict (list Z) entry) : conf := mkC [] [] [] [] [] [] [] si.
Definition has (c : conf) (n : list Z) : bool := match dget leqb (singles c) n with Some _ => true | None => false end.
Definition one (b : bool) : Z := if b then 1 else 0.
(** The whole of Config: [Ok None] for sys.exit. *)
Definition load (fuel : nat) (name : list Z) (lines : list (list Z)) : res (option conf) :=
  let* si := fold_left default1 required (Ok []) in
  let* (c, ok) := scan fuel name None lines (empty_conf si) in
  if negb ok then Ok None
  else if forallb (has c) required && (one (has c s_bridge) + one (has c s_routing) + one (has c s_http || has c s_api) =? 1) then Ok (Some c)
  else Ok None.
End Scan.
