(** What the built-in web server answers: http.py 121-149 (findnode), 159-220
    (do_GET), node.py 362-415 (http_get), and of Python's library what they use:
    urllib.parse.urlparse, parse_qs, os.path.realpath.  A string is a list of
    character codes; the target of a request comes as such (Latin 1).  The pages
    themselves, the map and the headers are not modelled. *)
From Verif Require Import Base.

Definition str := list Z.
Definition seqb (a b : str) : bool := if list_eq_dec Z.eq_dec a b then true else false.
(** The words used, in ASCII: resources, robots.txt, public, index.html, map,
    system, m, and of node.py bridge, routing, nsp, mop, stats. *)
Definition w_resources : str := [114; 101; 115; 111; 117; 114; 99; 101; 115].
Definition w_robots : str := [114; 111; 98; 111; 116; 115; 46; 116; 120; 116].
Definition w_public : str := [112; 117; 98; 108; 105; 99].
Definition w_index : str := [105; 110; 100; 101; 120; 46; 104; 116; 109; 108].
Definition w_map : str := [109; 97; 112].
Definition w_system : str := [115; 121; 115; 116; 101; 109].
Definition w_m : str := [109].
Definition w_bridge : str := [98; 114; 105; 100; 103; 101].
Definition w_routing : str := [114; 111; 117; 116; 105; 110; 103].
Definition w_nsp : str := [110; 115; 112].
Definition w_mop : str := [109; 111; 112].
Definition w_stats : str := [115; 116; 97; 116; 115].

(** * Python's library *)
(** s.split (c). *)
Fixpoint split (c : Z) (s : str) : list str :=
  match s with
  | [] => [[]]
  | x :: t => if x =? c then [] :: split c t else match split c t with w :: r => (x :: w) :: r | [] => [[x]] end
  end.
(** The part before the first character that is [p], and the rest with it. *)
Fixpoint until (p : Z -> bool) (s : str) : str * str :=
  match s with [] => ([], []) | x :: t => if p x then ([], s) else let (a, b) := until p t in (x :: a, b) end.
Definition is (c : Z) : Z -> bool := fun x => x =? c.
(** The part after the character [c], if there is one. *)
Definition after (c : Z) (s : str) : str * str := let (a, b) := until (is c) s in (a, tl b).
Definition alpha (x : Z) : bool := ((65 <=? x) && (x <=? 90)) || ((97 <=? x) && (x <=? 122)).
Definition schemechar (x : Z) : bool := alpha x || ((48 <=? x) && (x <=? 57)) || (x =? 43) || (x =? 45) || (x =? 46).
(** urlparse: scheme, netloc, path, params, query, fragment, each as far as it
    matters (whether scheme, netloc, params and fragment are empty).  A netloc with
    one kind of brackets only is a ValueError. *)
Record url := mkUrl { u_extra : bool; u_path : str; u_query : str }.
Definition has (c : Z) (s : str) : bool := existsb (Z.eqb c) s.
Definition splitparams (s : str) : str * str :=
  let r := rev s in
  let (lastrev, rest) := until (is 47) r in
  let (a, b) := after 59 (rev lastrev) in
  (rev rest ++ a, b).
Definition urlparse (s : str) : res url :=
  let (sch, r) := until (is 58) s in
  let scheme := match r with [] => false | _ => match sch with x :: _ => alpha x && forallb schemechar sch | [] => false end end in
  let s := if scheme then tl r else s in
  let* (net, s) := if seqb (firstn 2 s) [47; 47]
                   then let (n, t) := until (fun x => (x =? 47) || (x =? 63) || (x =? 35)) (skipn 2 s) in
                        if xorb (has 91 n) (has 93 n) then Err EValue else Ok (n, t)
                   else Ok ([], s) in
  let (s, frag) := after 35 s in
  let (s, query) := after 63 s in
  let (path, params) := splitparams s in
  Ok (mkUrl (scheme || negb (seqb net []) || negb (seqb frag []) || negb (seqb params [])) path query).
(** unquote: a percent sign and two hexadecimal digits are a byte.  Bytes above
    127 are decoded as UTF-8, here each to the replacement character. *)
Definition hex (x : Z) : option Z :=
  if (48 <=? x) && (x <=? 57) then Some (x - 48)
  else if (65 <=? x) && (x <=? 70) then Some (x - 55)
  else if (97 <=? x) && (x <=? 102) then Some (x - 87) else None.
Fixpoint unquote (s : str) : str :=
  match s with
  | [] => []
  | x :: t => match t with
              | a :: b :: r => match hex a, hex b with
                               | Some u, Some w => if x =? 37 then (if 16 * u + w <? 128 then 16 * u + w else 65533) :: unquote r else x :: unquote t
                               | _, _ => x :: unquote t
                               end
              | _ => x :: unquote t
              end
  end.
Definition unplus (s : str) : str := unquote (map (fun x => if x =? 43 then 32 else x) s).
(** parse_qs (q) [name]: values that are not empty, in order. *)
Definition values (name q : str) : list str :=
  flat_map (fun nv => let (n, v) := until (is 61) nv in
                      match v with _ :: ((_ :: _) as v) => if seqb (unplus n) name then [unplus v] else [] | _ => [] end) (split 38 q).
(** upper of ASCII letters and of the sharp s; other letters stay outside ASCII. *)
Definition upper (s : str) : str := flat_map (fun x => if (97 <=? x) && (x <=? 122) then [x - 32] else if x =? 223 then [83; 83] else [x]) s.
(** os.path.realpath without symbolic links: the names of the path, from [cwd] if
    it does not start at the root. *)
Fixpoint walk (at_ : list str) (l : list str) : list str :=
  match l with
  | [] => at_
  | n :: t => if seqb n [] || seqb n [46] then walk at_ t else if seqb n [46; 46] then walk (removelast at_) t else walk (at_ ++ [n]) t
  end.
Definition lexical (cwd : list str) (p : str) : list str := walk (if seqb (firstn 1 p) [47] then [] else cwd) (split 47 p).

(** * The server *)
(** A system: its name (may be missing), and whether it is a bridge. *)
Record sys := mkSys { y_name : option str; y_bridge : bool }.
(** The server: the systems, whether it has the map, what the file system makes
    of a path (realpath; the names of the result), and the files below the resource
    directory. *)
Record server := mkSrv { v_sys : list sys; v_map : bool; v_real : str -> list str; v_file : list str -> option (list Z) }.
Inductive layer := LRouting | LNsp | LMop | LStats | LBridge.
(** The answers: an error, a file, the map, the list of systems, a page of a
    system. *)
Inductive answer :=
| AError (code : Z) | AFile (path : list str) (data : list Z) | AMap (mobile : bool) (parts : list str)
| AList (mobile : bool) | APage (mobile : bool) (i : nat) (l : layer) (parts : list str).
Fixpoint index (name : str) (k : nat) (l : list sys) : option nat :=
  match l with
  | [] => None
  | y :: t => if match y_name y with Some n => negb (seqb n []) && seqb (upper n) name | None => false end then Some k else index name (S k) t
  end.
(** findnode, 121-149.  A path with a NUL is a ValueError of realpath. *)
Definition findnode (v : server) (target : str) : res (answer + (option nat * list str)) :=
  let* u := urlparse target in
  if u_extra u then Ok (inl (AError 400))
  else if has 0 (u_path u) then Err EValue
  else
    let parts := match v_real v (u_path u) with [] => [[]] | l => l end in
    match v_sys v with
    | [] => Err EIndex
    | [_] => Ok (inr (Some O, parts))
    | _ =>
        match u_query u with
        | [] => Ok (inr (None, parts))
        | q => match values w_system q with
               | [] => Err EKey
               | n :: _ => match index (upper n) 0 (v_sys v) with Some i => Ok (inr (Some i, parts)) | None => Ok (inl (AError 404)) end
               end
        end
    end.
(** http_get, node.py 362-415: which layer; the layer makes the page of the
    remaining parts, or none, which is error 404. *)
Definition page (y : sys) (parts : list str) : res (option (layer * list str)) :=
  match parts with
  | [] => Err EIndex
  | [[]] => Ok (Some (if y_bridge y then LBridge else LRouting, parts))
  | p :: r =>
      if y_bridge y then Ok (if seqb p w_bridge then Some (LBridge, r) else None)
      else if seqb p w_routing then Ok (Some (LRouting, r))
      else if seqb p w_nsp then Ok (Some (LNsp, r))
      else if seqb p w_mop then Ok (Some (LMop, r))
      else if seqb p w_stats then Ok (Some (LStats, r))
      else Ok None
  end.
(** do_GET, 159-220; an exception is answered with error 500. *)
Definition get (v : server) (target : str) : res answer :=
  let* f := findnode v target in
  match f with
  | inl a => Ok a
  | inr (node, parts) =>
      let* p0 := match parts with p :: _ => Ok p | [] => Err EIndex end in
      let parts := if seqb p0 w_robots then [w_resources; w_robots] else parts in
      let p0 := if seqb p0 w_robots then w_resources else p0 in
      if seqb p0 w_resources then
        let parts := match parts with [_; p] => if seqb p w_public then parts ++ [w_index] else parts | _ => parts end in
        Ok (match v_file v (tl parts) with Some d => AFile (tl parts) d | None => AError 404 end)
      else
        let mobile := seqb p0 w_m in
        let parts := if mobile then tl parts else parts in
        let parts := match parts with [] => [[]] | l => l end in
        if v_map v && seqb (hd [] parts) w_map then Ok (AMap mobile (tl parts))
        else match node with
             | None => Ok (match parts with [[]] => AList mobile | _ => AError 400 end)
             | Some i => match nth_error (v_sys v) i with
                         | None => Err EIndex
                         | Some y => let* r := page y parts in Ok (match r with Some (l, r) => APage mobile i l r | None => AError 404 end)
                         end
             end
  end.
