(** The talk server: applications/lsn.py, with connectors.py Connection.recv and accept. *)
From Verif Require Import Base AddrModel.

(** The sending node as the connect message gives it (session.py 580-583): its name, or
    its address as an integer. *)
Inductive remote := RName (n : list Z) | RNum (v : Z).
Definition remstr (r : remote) : list Z := match r with RName n => n | RNum v => str10 v end.
(** int.from_bytes (b, little) of at most two bytes. *)
Definition le (b : list Z) : Z := fold_right (fun c a => c + 256 * a) 0 b.
(** The connect data, lsn.py 43-53: the receiving terminal and the sending one.  The dialog
    flag is only looked at. *)
Definition connect_data (m : list Z) : res (Z * Z) :=
  let m := if (zlen m =? 7) && (match m with c :: _ => c =? 0 | [] => false end) then skipn 2 m
           else if negb (zlen m =? 5) then skipn 2 m else m in
  let t := le (firstn 2 m) in
  let s := le (firstn 2 (skipn 2 m)) in
  match nth_error m 4 with Some _ => Ok (t, s) | None => Err EIndex end.
(** pfx, 33-36 and 54: bytes (.., ascii). *)
Definition prefix (r : remote) (s : Z) : res (list Z) :=
  let x := [84; 76; 75; 62] ++ remstr r ++ [95; 84; 84] ++ str10 s ++ [58] in
  if forallb (fun c => (0 <=? c) && (c <? 128)) x then Ok x else Err EValue.
(** What the server does.  The exit status is that of main; OErr is an exception that ends
    the process. *)
Inductive out := OOpen (tty : Z) | OAccept | OWrite (b : list Z) | OClose | OExit (code : Z) | OErr (e : exn).
(** What is read from the connection; nothing more is the end of file, which is an EOFError
    in SimpleConnector.parse (connectors.py 255-256).  LOther is a message of another type
    (for example interrupt). *)
Inductive inp := LRun | LData (b : list Z) | LDisc | LOther.
(** The loop, 60-76. *)
Fixpoint talk (pfx : list Z) (l : list inp) : list out :=
  match l with
  | [] => [OErr EValue]
  | LData b :: t => OWrite (pfx ++ map (fun c => Z.land c 127) b ++ [13; 10]) :: talk pfx t
  | LDisc :: _ => [OClose; OExit 0]
  | _ :: _ => [OClose; OExit 2]
  end.
(** main, 16-79, from the connect message; [can] says which terminals os.open opens.  accept
    (connectors.py 112-118) waits for runstate; after anything else the connection is closed
    and the next recv is a ConnClosed. *)
Definition lsn (can : Z -> bool) (r : remote) (m : list Z) (l : list inp) : list out :=
  match connect_data m with
  | Err e => [OErr e]
  | Ok (t, s) =>
      match prefix r s with
      | Err e => [OErr e]
      | Ok pfx =>
          if can t then
            [OOpen t; OAccept] ++ match l with LRun :: l => talk pfx l | _ => [OErr EValue] end
          else [OErr EValue]
      end
  end.
