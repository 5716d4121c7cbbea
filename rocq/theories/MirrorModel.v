(** The mirror as a program of its own: applications/mirror.py, mirror2.py and mirror3.py,
    with accept and recv of connectors.py 88-118 and async_connectors.py 47-80.  Data are
    the bytes; the JSON text stands for them one to one (latin-1). *)
From Verif Require Import Base.

(** The items that Session Control writes to the program (session.py 932-945), by type.
    KRun is runstate; KOther is any other (interrupt, reject). *)
Inductive kind := KConnect | KRun | KData | KDisc | KOther.
Record work := mkW { w_conn : Z; w_kind : kind; w_data : list Z }.
(** What the program asks for, and how it ends: the exit status of main, or an exception.
    SClosed is ConnClosed, SEof is EOFError. *)
Inductive ask := QAccept (b : list Z) | QData (b : list Z) | QAbort.
Inductive stop := SExit (c : Z) | SErr (e : exn) | SClosed | SEof | SWait.
(** The answer to data: mirror.py 90-97, mirror2.py 79-85, mirror3.py 114-120. *)
Definition reply (msg : list Z) : res (list Z) :=
  match msg with
  | [] => Err EIndex
  | f :: d => if f =? 0 then Ok (1 :: d) else Ok [255]
  end.
(** 65535 in two bytes, mirror.py 126-127. *)
Definition maxlen : list Z := [65535 mod 256; 65535 / 256].
(** mirror.py main, 69-134: one loop for the items of every connection. *)
Fixpoint mirror1 (l : list work) : list (Z * ask) * stop :=
  match l with
  | [] => ([], SExit 1)
  | w :: t =>
      match w_kind w with
      | KData =>
          match reply (w_data w) with
          | Err e => ([], SErr e)
          | Ok b => let '(o, s) := mirror1 t in ((w_conn w, QData b) :: o, s)
          end
      | KConnect => let '(o, s) := mirror1 t in ((w_conn w, QAccept maxlen) :: o, s)
      | KDisc => ([], SExit 0)
      | _ => mirror1 t
      end
  end.
(** The loop of mirror2.py, 59-96, and of mirror3.py, 94-130; [three] says which.  At the
    end of the input mirror2 has an EOFError from parse (connectors.py 255-256); mirror3
    waits for its queue. *)
Fixpoint reflect (three : bool) (l : list (kind * list Z)) : list ask * stop :=
  match l with
  | [] => ([], if three then SWait else SEof)
  | (KData, m) :: t =>
      match reply m with
      | Err e => ([], SErr e)
      | Ok b => let '(o, s) := reflect three t in (QData b :: o, s)
      end
  | (KDisc, _) :: _ => ([], SExit 0)
  | _ :: _ => (if three then [QAbort] else [], SExit 2)
  end.
(** accept and what follows it; anything but runstate closes the connection, and the next
    recv is a ConnClosed. *)
Definition accepted (three : bool) (l : list (kind * list Z)) : list ask * stop :=
  match l with
  | [] => ([QAccept maxlen], if three then SWait else SEof)
  | (KRun, _) :: t => let '(o, s) := reflect three t in (QAccept maxlen :: o, s)
  | _ => ([QAccept maxlen], SClosed)
  end.
(** mirror2.py main, 35-96, from the items of its connection. *)
Definition mirror2 (l : list (kind * list Z)) : list ask * stop :=
  match l with
  | [] => ([], SEof)
  | (KConnect, _) :: t => accepted false t
  | _ => ([], SErr EAssert)
  end.
(** The peer in the connect item (session.py 580-583): a pair if its name is known, or an
    integer alone.  Unpacking the integer (mirror3.py 75) is a TypeError.  Logging is left
    out. *)
Definition mirror3 (named : bool) (l : list (kind * list Z)) : list ask * stop :=
  match l with
  | [] => ([], SWait)
  | (KConnect, _) :: t => if named then accepted true t else ([], SErr EType)
  | _ => ([], SErr EAssert)
  end.
