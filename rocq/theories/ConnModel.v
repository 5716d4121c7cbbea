(** The asyncio client of the PyDECnet API: how answers find their request and
    messages their connection.  /repo/pydecnet/decnet/async_connectors.py 39-350
    and the parts of connectors.py it inherits (Connection 75-133, parse
    260-284).

    Connections are objects, numbered in the order they are made; the handle of
    a connection is chosen by PyDECnet.  A coroutine that waits is modelled at
    the moment it continues: Recv and Listen take the first item of a queue and
    do nothing on an empty one.  Not modelled: the text and JSON form of
    messages, end of file, logging, the interpretation of poor man's routing
    answers in recv (PmrModel.v). *)
From Verif Require Import Base Dict.

(** The "type" of a message; [TOther] stands for data, interrupt, accept,
    runstate and all others. *)
Inductive mtype := TConnect | TConnecting | TBind | TReject | TDisconnect | TAbort | TClose | TOther.
(** A line from PyDECnet: "handle", "type", "tag", "error" present,
    "listenhandle", all else. *)
Record msg := { m_h : option Z; m_ty : mtype; m_tag : option Z; m_err : bool; m_lh : option Z; m_data : list Z }.
(** async_connectors.py 39-44, connectors.py 76-82. *)
Record conn := { c_h : Z; c_q : list msg; c_lq : list Z; c_closed : bool }.
(** The future of an exchange that waits for its answer.  When the waiting
    task is cancelled the future is, but the entry stays: the clause
    "except Exception" in exch (200-204) does not catch CancelledError, which
    has not been an Exception since Python 3.8. *)
Inductive fut := Pending | Cancelled.
Record cst := {
  conns : dict Z Z;      (* connections: handle to object *)
  objs : dict Z conn;
  made : Z;              (* number of objects made *)
  exs : dict Z fut;      (* exchanges *)
  tag : Z;
  lq : list Z;           (* listenq of a pipe connector *)
  alive : bool }.        (* the receiver task runs *)
Definition cinit : cst := {| conns := []; objs := []; made := 0; exs := []; tag := 1; lq := []; alive := true |}.

Inductive sendkind := SKeep | SEnd.  (* data, interrupt, accept, setsockopt | reject, disconnect, abort *)
Inductive cop :=
  | Exch                          (* connect, bind or another request with an answer *)
  | Cancel (t : Z)                (* the task that waits for the answer is cancelled *)
  | Line (m : msg)                (* the receiver task reads a line *)
  | Recv (c : Z) | Send (c : Z) (k : sendkind) | Listen (c : Z)
  | PListen.                      (* listen of a pipe connector *)
Inductive cout :=
  | OReq (t : Z)                  (* request sent with this tag *)
  | ODone (t : Z) (c : option Z) (m : msg)  (* the exchange returns this connection and message *)
  | OMade (c h : Z) | OShut (c : Z)
  | OGot (c : Z) (m : msg)        (* recv returns (or raises) this message *)
  | ONew (l c : Z)                (* listen on connection l returns connection c *)
  | ONewP (c : Z)                 (* listen of a pipe connector returns connection c *)
  | OSent (c : Z) (k : sendkind)
  | OClosed                       (* ConnClosed raised *)
  | ODead.                        (* exception in the receiver task; the connector shuts down *)

Definition set_obj (s : cst) (c : Z) (o : conn) : cst :=
  {| conns := conns s; objs := dset Z.eqb (objs s) c o; made := made s; exs := exs s; tag := tag s; lq := lq s; alive := alive s |}.
Definition set_conns (s : cst) (d : dict Z Z) : cst :=
  {| conns := d; objs := objs s; made := made s; exs := exs s; tag := tag s; lq := lq s; alive := alive s |}.
Definition set_exs (s : cst) (d : dict Z fut) : cst :=
  {| conns := conns s; objs := objs s; made := made s; exs := d; tag := tag s; lq := lq s; alive := alive s |}.
Definition set_lq (s : cst) (q : list Z) : cst :=
  {| conns := conns s; objs := objs s; made := made s; exs := exs s; tag := tag s; lq := q; alive := alive s |}.
Definition die (s : cst) : cst :=
  {| conns := conns s; objs := objs s; made := made s; exs := exs s; tag := tag s; lq := lq s; alive := false |}.
(** Connection.__init__. *)
Definition new_conn (s : cst) (h : Z) : cst :=
  {| conns := dset Z.eqb (conns s) h (made s); objs := dset Z.eqb (objs s) (made s) {| c_h := h; c_q := []; c_lq := []; c_closed := false |};
     made := made s + 1; exs := exs s; tag := tag s; lq := lq s; alive := alive s |}.
Definition withq (o : conn) (q : list msg) : conn := {| c_h := c_h o; c_q := q; c_lq := c_lq o; c_closed := c_closed o |}.
Definition withlq (o : conn) (q : list Z) : conn := {| c_h := c_h o; c_q := c_q o; c_lq := q; c_closed := c_closed o |}.
(** Connection.close, connectors.py 104-107. *)
Definition close (s : cst) (c : Z) : cst * list cout :=
  match dget Z.eqb (objs s) c with
  | Some o => if c_closed o then (s, [])
              else (set_conns (set_obj s c {| c_h := c_h o; c_q := c_q o; c_lq := c_lq o; c_closed := true |}) (ddel Z.eqb (conns s) (c_h o)), [OShut c])
  | None => (s, [])
  end.
(** AsyncConnector.makeconn, 253-279; [pipe]: the connector is an
    AsyncPipeConnector, which has a listenq. *)
Definition makeconn (pipe : bool) (s : cst) (m : msg) (h : Z) : cst * option Z * list cout :=
  let c := made s in
  let s := new_conn s h in
  match m_ty m with
  | TConnect =>
      match m_lh m with
      | None => (if pipe then set_lq s (lq s ++ [c]) else s, Some c, [OMade c h])
      | Some bh =>
          match dget Z.eqb (conns s) bh with
          | Some bc =>
              match dget Z.eqb (objs s) bc with
              | Some o => (set_obj s bc (withlq o (c_lq o ++ [c])), Some c, [OMade c h])
              | None => (s, Some c, [OMade c h])
              end
          | None => let '(s, o) := close s c in (s, None, [OMade c h; OSent c SEnd] ++ o)
          end
      end
  | _ => (s, Some c, [OMade c h])
  end.
(** parse, connectors.py 260-284; the handle 0 counts as none.  None: the
    message is refused with SequenceError. *)
Definition parse (pipe : bool) (s : cst) (m : msg) : option (cst * option Z * list cout) :=
  match m_h m with
  | None => Some (s, None, [])
  | Some h =>
      if h =? 0 then Some (s, None, [])
      else match dget Z.eqb (conns s) h with
           | Some c => Some (s, Some c, [])
           | None => match m_ty m with
                     | TConnect | TConnecting | TBind => Some (makeconn pipe s m h)
                     | _ => None
                     end
           end
  end.
(** dispatch, 164-186, called by the receiver (103-111). *)
Definition dispatch (pipe : bool) (s : cst) (m : msg) : cst * list cout :=
  match parse pipe s m with
  | None => (die s, [ODead])
  | Some (s, rc, o) =>
      match m_tag m with
      | Some t =>
          match dget Z.eqb (exs s) t with
          | None => (s, o)
          | Some f => let s := set_exs s (ddel Z.eqb (exs s) t) in
                      match f with
                      | Pending => (s, o ++ [ODone t rc m])
                      | Cancelled => (die s, o ++ [ODead])    (* set_result raises InvalidStateError *)
                      end
          end
      | None =>
          match rc with
          | Some c => match dget Z.eqb (objs s) c with
                      | Some b => (set_obj s c (withq b (c_q b ++ [m])), o)
                      | None => (s, o)
                      end
          | None => (s, o)    (* put into a queue that recv (78-82) fails to read *)
          end
      end
  end.
Definition ends (t : mtype) : bool := match t with TReject | TDisconnect | TAbort | TClose => true | _ => false end.
(** AsyncConnection.recv, 46-52: an error is raised, other messages are
    returned. *)
Definition recv (s : cst) (c : Z) : cst * list cout :=
  match dget Z.eqb (objs s) c with
  | None => (s, [])
  | Some o =>
      if c_closed o then (s, [OClosed])
      else match c_q o with
           | [] => (s, [])
           | m :: q => let s := set_obj s c (withq o q) in
                       if m_err m then (s, [OGot c m])
                       else if ends (m_ty m) then let '(s, e) := close s c in (s, OGot c m :: e)
                       else (s, [OGot c m])
           end
  end.
(** Connection.send, connectors.py 98-102, and the methods that close. *)
Definition send (s : cst) (c : Z) (k : sendkind) : cst * list cout :=
  match dget Z.eqb (objs s) c with
  | None => (s, [])
  | Some o => if c_closed o then (s, [OClosed])
              else match k with
                   | SKeep => (s, [OSent c k])
                   | SEnd => let '(s, e) := close s c in (s, OSent c k :: e)
                   end
  end.
(** AsyncConnection.listen, 63-65. *)
Definition listen (s : cst) (c : Z) : cst * list cout :=
  match dget Z.eqb (objs s) c with
  | None => (s, [])
  | Some o => match c_lq o with [] => (s, []) | n :: q => (set_obj s c (withlq o q), [ONew c n]) end
  end.
(** AsyncPipeConnector.listen, 322-327. *)
Definition plisten (s : cst) : cst * list cout :=
  match lq s with [] => (s, []) | c :: q => (set_lq s q, [ONewP c]) end.
(** exch, 188-204, up to the waiting. *)
Definition exch (s : cst) : cst * list cout :=
  let t := tag s + 1 in
  ({| conns := conns s; objs := objs s; made := made s; exs := dset Z.eqb (exs s) t Pending; tag := t; lq := lq s; alive := alive s |}, [OReq t]).
Definition cancel (s : cst) (t : Z) : cst * list cout :=
  match dget Z.eqb (exs s) t with Some Pending => (set_exs s (dset Z.eqb (exs s) t Cancelled), []) | _ => (s, []) end.
Definition cstep (pipe : bool) (s : cst) (e : cop) : cst * list cout :=
  match e with
  | Exch => exch s
  | Cancel t => cancel s t
  | Line m => if alive s then dispatch pipe s m else (s, [])
  | Recv c => recv s c
  | Send c k => send s c k
  | Listen c => listen s c
  | PListen => plisten s
  end.
Fixpoint crun (pipe : bool) (s : cst) (l : list cop) : cst * list (cop * list cout) :=
  match l with
  | [] => (s, [])
  | e :: t => let '(s1, o) := cstep pipe s e in let '(s2, r) := crun pipe s1 t in (s2, (e, o) :: r)
  end.
