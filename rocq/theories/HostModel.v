(** Host names and IP addresses of circuits: host.py 107-350, 399-412, 459-501.
    Times are whole seconds.  The lookup itself (socket.getaddrinfo) is an
    input: a list of families and socket addresses, or None for socket.error.
    The resolver's thread is taken to run lookup_done without interruption. *)
From Verif Require Import Base I3Model.

(** Address families: AF_INET, AF_INET6, any other. *)
Inductive fam := F4 | F6 | FX.
Definition fam_eqb (a b : fam) : bool :=
  match a, b with F4, F4 | F6, F6 | FX, FX => true | _, _ => false end.
(** A Python sockaddr: address text, port, and the rest of an IPv6 one. *)
Definition sockaddr := (list Z * Z * list Z)%type.
Definition sa_ip (a : sockaddr) : list Z := fst (fst a).
Definition sa_eqb (a b : sockaddr) : bool :=
  leqb (fst (fst a)) (fst (fst b)) && (snd (fst a) =? snd (fst b)) && leqb (snd a) (snd b).
Definition ai := (fam * sockaddr)%type.
Definition ai_eqb (a b : ai) : bool := fam_eqb (fst a) (fst b) && sa_eqb (snd a) (snd b).
(** "x in s". *)
Definition mem {A} (eqb : A -> A -> bool) (x : A) (l : list A) : bool := existsb (eqb x) l.
(** set.add: a list without repetitions. *)
Definition sadd {A} (eqb : A -> A -> bool) (l : list A) (x : A) : list A :=
  if mem eqb x l then l else l ++ [x].

(** HostAddress (107-191). *)
Record host := mkHost {
  h_any : bool;             (* any *)
  h_allow4 : Z;             (* allow_ipv4 *)
  h_allow6 : Z;             (* allow_ipv6 *)
  h_ipv4 : bool;            (* ipv4 *)
  h_ipv6 : bool;            (* ipv6 *)
  h_sockset : list sockaddr;(* sockaddrset *)
  h_ipset : list (list Z);  (* ipaddrset *)
  h_ailist : list ai;       (* ailist *)
  h_iter : list ai;         (* what aiiter still has *)
  h_cur : option ai;        (* _current_ai *)
  h_next : Z;               (* next_check *)
  h_interval : Z;           (* interval *)
  h_queue : Z               (* entries of this host in the resolver's queue *)
}.
(** NEVER (43). *)
Definition NEVER : Z := 2 ^ 62.

(** fams (195-201). *)
Definition in_fams (a4 a6 : Z) (f : fam) : bool :=
  if negb (a6 =? 0) then
    if negb (a4 =? 0) then fam_eqb f F4 || fam_eqb f F6 else fam_eqb f F6
  else fam_eqb f F4.
(** sockaddr[0].startswith ("fe80") (218). *)
Definition fe80 : list Z := [102; 101; 56; 48].
Definition link_local (a : sockaddr) : bool := startswith (sa_ip a) fe80.
(** The loop of lookup_done (212-222): the flags, aiset and aset. *)
Definition lk_step (a4 a6 : Z) (s : bool * bool * list ai * list sockaddr) (x : ai)
  : bool * bool * list ai * list sockaddr :=
  let '(v4, v6, aiset, aset) := s in
  if in_fams a4 a6 (fst x) then
    if fam_eqb (fst x) F4 then (true, v6, sadd ai_eqb aiset x, sadd sa_eqb aset (snd x))
    else if link_local (snd x) then (v4, true, aiset, aset)
    else (v4, true, sadd ai_eqb aiset x, sadd sa_eqb aset (snd x))
  else s.
Definition lk_loop (a4 a6 : Z) (v4 v6 : bool) (r : list ai) : bool * bool * list ai * list sockaddr :=
  fold_left (lk_step a4 a6) r (v4, v6, [], []).
(** Family preference (232-245).  A set has no order and random.shuffle makes
    any: [ord] is the order the set's members come in.  sorted is stable. *)
Definition by_pref (a4 a6 : Z) (ord : list ai) : list ai :=
  if a4 =? a6 then ord
  else if a4 <? a6 then filter (fun x => negb (fam_eqb (fst x) F4)) ord ++ filter (fun x => fam_eqb (fst x) F4) ord
  else filter (fun x => negb (fam_eqb (fst x) F6)) ord ++ filter (fun x => fam_eqb (fst x) F6) ord.

(** __next__ (259-277). *)
Definition host_advance (h : host) : host :=
  let '(it, cur) :=
    match h_iter h with
    | x :: t => (t, Some x)
    | [] => match h_ailist h with
            | x :: t => (t, Some x)
            | [] => ([], None)
            end
    end in
  mkHost (h_any h) (h_allow4 h) (h_allow6 h) (h_ipv4 h) (h_ipv6 h) (h_sockset h) (h_ipset h)
         (h_ailist h) it cur (h_next h) (h_interval h) (h_queue h).

(** lookup_done (192-254). *)
Definition lookup_done (h : host) (r ord : list ai) : host :=
  let '(v4, v6, aiset, aset) := lk_loop (h_allow4 h) (h_allow6 h) (h_ipv4 h) (h_ipv6 h) r in
  let ips := fold_left (fun s x => sadd leqb s (sa_ip (snd x))) aiset (h_ipset h) in
  match aiset with
  | [] => mkHost (h_any h) (h_allow4 h) (h_allow6 h) v4 v6 aset ips
                 (h_ailist h) (h_iter h) (h_cur h) (h_next h) (h_interval h) (h_queue h)
  | _ =>
      let l := by_pref (h_allow4 h) (h_allow6 h) ord in
      let h1 := mkHost (h_any h) (h_allow4 h) (h_allow6 h) v4 v6 aset ips
                       l l (h_cur h) (h_next h) (h_interval h) (h_queue h) in
      if match h_cur h with Some c => mem ai_eqb c l | None => false end then h1
      else host_advance h1
  end.
(** NameResolver.dolookup (492-501): socket.error leaves everything as it was. *)
Definition dolookup (h : host) (r : option (list ai)) (ord : list ai) : host :=
  match r with None => h | Some r => lookup_done h r ord end.

(** What a configured name can be: "*" or nothing, an IPv4 or IPv6 address (as
    inet_pton sees it), anything else. *)
Inductive hkind := KWild | K4 | K6 | KName.
(** __init__ (113-190) at time [now]; [has6] is socket.has_ipv6. *)
Definition host_new (k : hkind) (port : Z) (any : bool) (ipv4 ipv6 : Z) (has6 : bool)
    (interval now : Z) (r : option (list ai)) (ord : list ai) : res host :=
  let '(a4, a6) := if (ipv4 =? 0) && (ipv6 =? 0) then (1, if has6 then 1 else 0) else (ipv4, ipv6) in
  let named v4 v6 next :=
    let h := dolookup (mkHost false a4 a6 v4 v6 [] [] [] [] None next interval 0) r ord in
    match h_sockset h with [] => Err EValue | _ => Ok h end in
  match k with
  | KWild =>
      if any then
        let x := (if negb (a6 =? 0) then F6 else F4, ([], port, [])) in
        Ok (mkHost true a4 a6 (negb (a4 =? 0)) (negb (a6 =? 0)) [snd x] [] [x] [] (Some x) NEVER interval 0)
      else Err EValue
  | K4 => if a4 =? 0 then Err EValue else named true false NEVER
  | K6 => if a6 =? 0 then Err EValue else named false true NEVER
  | KName => named false false (now + interval)
  end.
(** SourceAddress.__init__ (401-408); [locals] is LocalAddresses. *)
Definition source_new (k : hkind) (port : Z) (ipv4 ipv6 : Z) (has6 : bool) (now : Z)
    (r : option (list ai)) (ord : list ai) (locals : list (list Z)) : res host :=
  let* h := host_new k port true ipv4 ipv6 has6 3600 now r ord in
  if h_any h then Ok h
  else if negb (zlen (h_sockset h) =? 1) then Err EValue
  else match h_cur h with
       | None => Err EType
       | Some c => if mem leqb (sa_ip (snd c)) locals then Ok h else Err EValue
       end.

(** check_interval (291-300). *)
Definition due (h : host) (now : Z) : bool := h_next h <? now.
Definition check_interval (h : host) (now : Z) : host :=
  if due h now then
    mkHost (h_any h) (h_allow4 h) (h_allow6 h) (h_ipv4 h) (h_ipv6 h) (h_sockset h) (h_ipset h)
           (h_ailist h) (h_iter h) (h_cur h) (now + h_interval h) (h_interval h)
           (if h_any h then h_queue h else h_queue h + 1)
  else h.
(** use_dualstack, listen_family (328-337). *)
Definition use_dualstack (h : host) : bool := h_ipv4 h && h_ipv6 h.
Definition listen_family (h : host) : fam := if h_ipv6 h then F6 else F4.
(** valid (279-289). *)
Definition mapped : list Z := [58; 58; 102; 102; 102; 102; 58].
Definition unmap (ip : list Z) : list Z := if startswith ip mapped then from 7 ip else ip.
Definition host_valid (h : host) (a : sockaddr) : bool :=
  mem leqb (unmap (sa_ip a)) (h_ipset h) || h_any h.

(** What happens to a host object: the circuit asks for the address to send to
    (sockaddr, addrinfo; 302-326), goes on to the next one, asks whether a
    sender is all right, and the resolver finishes a lookup. *)
Inductive hev :=
| HUse (now : Z)
| HNext
| HValid (now : Z) (a : sockaddr)
| HDone (r : option (list ai)) (ord : list ai).
Inductive hout := OAddr (a : option ai) | OValid (b : bool) | ONone.
Definition host_step (h : host) (e : hev) : host * hout :=
  match e with
  | HUse now => let h' := check_interval h now in (h', OAddr (h_cur h'))
  | HNext => let h' := host_advance h in (h', OAddr (h_cur h'))
  | HValid now a => let h' := check_interval h now in (h', OValid (host_valid h' a))
  | HDone r ord => (dolookup h r ord, ONone)
  end.
Definition host_run (h : host) (l : list hev) : host := fold_left (fun h e => fst (host_step h e)) l h.
(** The outputs in turn. *)
Fixpoint host_outs (h : host) (l : list hev) : list hout :=
  match l with [] => [] | e :: t => snd (host_step h e) :: host_outs (fst (host_step h e)) t end.
