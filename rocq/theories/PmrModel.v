(** Poor man's routing: connectors.py 33 (_pmr_re), 159-219 (checkpmr,
    parsepmrresponse), async_connectors.py 47-64, 221-247 (recv, connect),
    applications/pmr.py (the relay).  Strings are lists of character codes. *)
From Verif Require Import Base AddrModel.

(** * The regular expression
    [([a-z0-9.]+)((?:::[a-z0-9.]+)*?)(?:::Q?(?:(?:(\d+)=)|(?:task=(\S+)))?Q?)?$]
    (Q: a quote of either kind) with re.I, as the backtracking matcher it describes: each part is tried in
    the order Python tries it, with what follows as a continuation.
    Simplification: letters and digits are the ASCII ones. *)
Definition lower1 (c : Z) : Z := if (65 <=? c) && (c <=? 90) then c + 32 else c.
Definition is_namec (c : Z) : bool := let c := lower1 c in ((97 <=? c) && (c <=? 122)) || is_digit c || (c =? 46).
Definition is_quote (c : Z) : bool := (c =? 34) || (c =? 39).
(** \s for code points up to 255. *)
Definition is_space (c : Z) : bool := ((9 <=? c) && (c <=? 13)) || ((28 <=? c) && (c <=? 32)) || (c =? 133) || (c =? 160).
Definition orelse {A} (a b : option A) : option A := match a with Some _ => a | None => b end.
(** [x+]: as many as possible first. *)
Fixpoint plus {A} (p : Z -> bool) (s : list Z) (k : list Z -> list Z -> option A) : option A :=
  match s with
  | c :: t => if p c then orelse (plus p t (fun a r => k (c :: a) r)) (k [c] t) else None
  | [] => None
  end.
(** Q? *)
Definition quote_opt {A} (s : list Z) (k : list Z -> option A) : option A :=
  match s with c :: t => if is_quote c then orelse (k t) (k s) else k s | [] => k s end.
(** A literal, ignoring case. *)
Fixpoint lit {A} (w s : list Z) (k : list Z -> option A) : option A :=
  match w, s with
  | [], _ => k s
  | x :: w', c :: t => if lower1 c =? x then lit w' t k else None
  | _ :: _, [] => None
  end.
Definition s_task : list Z := [116; 97; 115; 107; 61].
(** (?:(?:(\d+)=)|(?:task=(\S+)))? *)
Definition object_opt {A} (s : list Z) (k : option (list Z) -> option (list Z) -> list Z -> option A) : option A :=
  orelse (plus is_digit s (fun d r => match r with 61 :: r' => k (Some d) None r' | _ => None end))
 (orelse (lit s_task s (fun r => plus (fun c => negb (is_space c)) r (fun t r' => k None (Some t) r')))
         (k None None s)).
Definition end_of {A} (x : A) (s : list Z) : option A := if at_end s then Some x else None.
(** (?:::...)?$ *)
Definition tail_opt (s : list Z) : option (option (list Z) * option (list Z)) :=
  orelse (match s with
          | 58 :: 58 :: r => quote_opt r (fun r => object_opt r (fun a b r => quote_opt r (end_of (a, b))))
          | _ => None
          end)
         (end_of (None, None) s).
(** ((?:::[a-z0-9.]+)*?) and the rest; the fuel is more than the length. *)
Fixpoint hops (fuel : nat) (s g2 : list Z) : option (list Z * option (list Z) * option (list Z)) :=
  match fuel with
  | O => None
  | S f =>
      orelse (match tail_opt s with Some (a, b) => Some (g2, a, b) | None => None end)
             (match s with
              | 58 :: 58 :: r => plus is_namec r (fun n r' => hops f r' (g2 ++ 58 :: 58 :: n))
              | _ => None
              end)
  end.
(** _pmr_re.match: the four groups. *)
Definition pmr_match (s : list Z) : option (list Z * list Z * option (list Z) * option (list Z)) :=
  plus is_namec s (fun n r => match hops (S (length s)) r [] with Some (g2, a, b) => Some (n, g2, a, b) | None => None end).

(** * Requests *)
(** The remote user of a connect: a number, a string (makestr), or missing. *)
Inductive user := UInt (n : Z) | UStr (s : list Z) | UNone.
Definition s_none : list Z := [78; 111; 110; 101].
Definition s_TASK : list Z := [84; 65; 83; 75; 61].
(** checkpmr 159-193 for the "session" API: destination, remote user, and the
    request string if there is one.  m.group (2)[2:] drops the first "::".
    A request's first character is chr (hopcount). *)
Definition checkpmr (hop : Z) (dest : list Z) (u : user) : list Z * user * option (list Z) :=
  match pmr_match dest with
  | None => (dest, u, None)
  | Some (n, g2, a, b) =>
      let u1 := match b, a with Some t, _ => UStr t | None, Some d => UInt (int10 d) | None, None => u end in
      match g2 with
      | [] => (n, u1, None)
      | _ =>
          let obj := match u1 with UInt v => str10 v ++ [61] | UStr t => s_TASK ++ t | UNone => s_TASK ++ s_none end in
          (n, UInt 123, Some (hop :: skipn 2 g2 ++ 58 :: 58 :: obj))
      end
  end.
(** The relay's use of a request (pmr.py 69-78): the connect it makes.  A
    request is never empty. *)
Definition relay_connect (req : list Z) : list Z * user * option (list Z) :=
  match req with [] => ([], UNone, None) | h :: path => checkpmr (h + 1) path UNone end.
(** connpath.split (":", 1)[0] *)
Fixpoint until_colon (s : list Z) : list Z := match s with c :: t => if c =? 58 then [] else c :: until_colon t | [] => [] end.
(** The reply of a relay (pmr.py 102-115), given that of the next relay. *)
Definition relay_reply (req : list Z) (next : option (list Z)) : list Z :=
  let hop1 := match req with [] => [] | _ :: path => until_colon path end in
  match next with
  | Some (c :: r) => c :: hop1 ++ 58 :: 58 :: r
  | _ => 1 :: hop1 ++ [58; 58]
  end.
(** parsepmrresponse 195-219: accept with data, or reject (text left out).
    rsplit (b":", 1)[1] is what follows the last colon; without colon it
    raises. *)
Fixpoint after_colons (s : list Z) : option (list Z) :=
  match s with
  | [] => None
  | c :: t => match after_colons t with Some r => Some r | None => if c =? 58 then Some t else None end
  end.
Definition parse_reply (s : list Z) : res (option (list Z)) :=
  match s with
  | 1 :: _ => match after_colons s with Some d => Ok (Some d) | None => Err EIndex end
  | _ => Ok None
  end.

(** * The relay process, pmr.py 31-137 *)
Inductive mtype := MConnect | MData | MInterrupt | MDisconnect | MAbort | MReject | MAccept | MOther.
(** What happens: a message on the incoming connection, the result of the
    outgoing connect, a message on the outgoing connection. *)
Inductive revent := RIn (t : mtype) (d : list Z) | RConn (ok : bool) | ROut (t : mtype) (d : list Z).
(** What the relay sends: on the incoming connection, a connect, on the
    outgoing connection. *)
Inductive rsend := SIn (t : mtype) (d : list Z) | SConnect (dest : list Z) (u : user) (req : option (list Z)) | SOut (t : mtype) (d : list Z).
Inductive rstate := WConnect | WRequest | WConn (req : list Z) | WAccept (req : list Z) (relayed : bool) | Relaying | Ended.
(** Does recv close the connection (async_connectors.py 54-55)? *)
Definition closes (t : mtype) : bool := match t with MDisconnect | MAbort | MReject => true | _ => false end.
(** closeconn, for a connection on which [t] was the last message. *)
Definition close_in (t : mtype) (k : mtype) : list rsend := if closes t then [] else [SIn k []].
Definition close_out (t : mtype) (k : mtype) : list rsend := if closes t then [] else [SOut k []].
(** One event.  In WConnect the assert fails if the first message is no
    connect, and the process ends.  [conn.accept ()] (59) makes a coroutine
    that is never awaited (accept is async, async_connectors.py 70), so nothing
    is sent.  While relaying, the first task that ends also ends the other one
    (122-137); a connection that is still open is then disconnected.  That a
    message of the next relay is taken for its reply (usepmr) is the test
    [relayed].  Failing sends and the text after the code 2 are left out. *)
Definition route (s : rstate) (e : revent) : rstate * list rsend :=
  match s, e with
  | WConnect, RIn t _ => (match t with MConnect => WRequest | _ => Ended end, [])
  | WRequest, RIn MData (h :: path) =>
      let '(dest, u, req) := relay_connect (h :: path) in (WConn (h :: path), [SConnect dest u req])
  | WRequest, RIn MData [] => (Ended, [])
  | WRequest, RIn t _ => (Ended, close_in t MAbort)
  | WConn req, RConn true => (WAccept req (match snd (relay_connect req) with Some _ => true | None => false end), [])
  | WConn req, RConn false => (Ended, [SIn MData [2]; SIn MDisconnect []])
  | WAccept req relayed, ROut t d =>
      match relayed, t with
      | true, MData => match parse_reply d with
                       | Ok (Some _) => (Relaying, [SIn MData (relay_reply req (Some d))])
                       | Ok None => (Ended, [SIn MReject []])
                       | Err _ => (Ended, [])
                       end
      | _, MReject => (Ended, [SIn MReject d])
      | false, MAccept => (Relaying, [SIn MData (relay_reply req None)])
      | _, _ => (Ended, SIn MAbort [] :: close_out t MAbort)
      end
  | Relaying, RIn t d =>
      match t with
      | MData | MInterrupt => (Relaying, [SOut t d])
      | MDisconnect => (Ended, [SOut MDisconnect d])
      | _ => (Ended, close_in t MDisconnect ++ [SOut MDisconnect []])
      end
  | Relaying, ROut t d =>
      match t with
      | MData | MInterrupt => (Relaying, [SIn t d])
      | MDisconnect => (Ended, [SIn MDisconnect d])
      | _ => (Ended, SIn MDisconnect [] :: close_out t MDisconnect)
      end
  | _, _ => (s, [])
  end.
Fixpoint relay_run (s : rstate) (l : list revent) : rstate * list rsend :=
  match l with
  | [] => (s, [])
  | e :: t => let '(s1, o1) := route s e in let '(s2, o2) := relay_run s1 t in (s2, o1 ++ o2)
  end.
