(** Model of session control: the object registry, incoming connections and
    the connectors to applications, decnet/session.py.

    Object identities ([id (x)], the handles given to applications) are
    numbers from a counter.  Applications are identified by their connector:
    one for each API client, one for each process or module started.
    Answers of the environment are arguments: what NSP says to a call, whether
    the message to the application could be sent, whether its process could be
    started, PAM and the password file.
    Simplifications: code points above 255 have no case; sending to NSP
    ([Session.connect] builds a SessionConnInit, SessPktModel.v) is one of
    those answers; the calls a module makes directly on its SessionConnection,
    and the fields of the "connect" item other than the credentials, are not
    modelled. *)
From Verif Require Import Base Dict PacketModel SessPktModel.

(** str.upper and str.lower for Latin-1. *)
Definition upper1 (c : Z) : list Z :=
  if (97 <=? c) && (c <=? 122) then [c - 32]
  else if c =? 223 then [83; 83]
  else if c =? 255 then [376]
  else if c =? 181 then [924]
  else if (224 <=? c) && (c <=? 254) && negb (c =? 247) then [c - 32]
  else [c].
Definition upper (l : list Z) : list Z := flat_map upper1 l.
Definition lower1 (c : Z) : Z :=
  if (65 <=? c) && (c <=? 90) then c + 32
  else if (192 <=? c) && (c <=? 222) && negb (c =? 215) then c + 32
  else c.
Definition lower (l : list Z) : list Z := map lower1 l.

Definition s_off : list Z := [111; 102; 102].
Definition s_login : list Z := [108; 111; 103; 105; 110].

(** * Objects *)
(** ApiListener (of a connector), ModuleObject, FileObject: session.py:258-351. *)
Inductive okind := KApi (app : Z) | KModule | KFile.
Record obj := { o_id : Z; o_kind : okind; o_num : Z; o_name : list Z; o_auth : list Z; o_uid : option Z; o_gid : Z }.

(** A SessionConnection: the NSP connection, its handle, and the application
    ([client]; not set while the application is being started). *)
Record sconn := { c_handle : Z; c_client : option Z }.
(** Entries of BaseConnector.conns. *)
Inductive entry := EConn (nsp : Z) | EListen (o : obj).

Record sess := {
  s_num : dict Z obj;
  s_name : dict (list Z) obj;
  s_conns : dict Z sconn;
  s_apps : dict Z (dict Z entry);   (* [conns] of each connector *)
  s_next : Z
}.
Definition with_num (s : sess) x := {| s_num := x; s_name := s_name s; s_conns := s_conns s; s_apps := s_apps s; s_next := s_next s |}.
Definition with_name (s : sess) x := {| s_num := s_num s; s_name := x; s_conns := s_conns s; s_apps := s_apps s; s_next := s_next s |}.
Definition with_conns (s : sess) x := {| s_num := s_num s; s_name := s_name s; s_conns := x; s_apps := s_apps s; s_next := s_next s |}.
Definition with_apps (s : sess) x := {| s_num := s_num s; s_name := s_name s; s_conns := s_conns s; s_apps := x; s_next := s_next s |}.
Definition bump (s : sess) := {| s_num := s_num s; s_name := s_name s; s_conns := s_conns s; s_apps := s_apps s; s_next := s_next s + 1 |}.

Definition numget := dget Z.eqb (V := obj).
Definition nameget := dget leqb (V := obj).
Definition appget (s : sess) (a : Z) : dict Z entry := match dget Z.eqb (s_apps s) a with Some d => d | None => [] end.
Definition setapp (s : sess) (a : Z) (d : dict Z entry) : sess := with_apps s (dset Z.eqb (s_apps s) a d).

(** [del d[k]] *)
Definition del {K V} (eqb : K -> K -> bool) (d : dict K V) (k : K) : res (dict K V) :=
  match dget eqb d k with Some _ => Ok (ddel eqb d k) | None => Err EKey end.

(** The end of ObjectListener.__init__, session.py:236-239. *)
Definition register (s : sess) (o : obj) : sess :=
  let s := match o_name o with [] => s | _ => with_name s (dset leqb (s_name s) (o_name o) o) end in
  if o_num o =? 0 then s else with_num s (dset Z.eqb (s_num s) (o_num o) o).
(** ObjectListener.disconnect, session.py:241-249; the second component is the
    exception, with the effects up to it. *)
Definition unregister (s : sess) (o : obj) : sess * option exn :=
  let step1 := if o_num o =? 0 then Ok s else let* d := del Z.eqb (s_num s) (o_num o) in Ok (with_num s d) in
  match step1 with
  | Err e => (s, Some e)
  | Ok s => match o_name o with
            | [] => (s, None)
            | n => match del leqb (s_name s) n with Ok d => (with_name s d, None) | Err e => (s, Some e) end
            end
  end.

(** Is python-pam installed; PAM; the password file (user and group id). *)
Record env := { pam_present : bool; pam : list Z -> list Z -> bool; getpw : list Z -> option (Z * Z) }.

(** ApiListener.__init__, session.py:261-267 and 222-239. *)
Definition bind_obj (e : env) (s : sess) (app num : Z) (name auth : list Z) : res (sess * obj) :=
  if (match nameget (s_name s) name with Some _ => true | None => false end)
     || (match numget (s_num s) num with Some _ => true | None => false end) then Err EValue (* InUse *)
  else
    let auth := lower auth in
    if negb (leqb auth s_off) && negb (pam_present e) then Err EValue
    else
      let name := upper name in
      if (num =? 0) && negb (nonempty name) then Err EValue
      else if 16 <? zlen name then Err EValue
      else
        let o := {| o_id := s_next s; o_kind := KApi app; o_num := num; o_name := name; o_auth := auth; o_uid := None; o_gid := 0 |} in
        let s := register (bump s) o in
        Ok (setapp s app (dset Z.eqb (appget s app) (o_id o) (EListen o)), o).

(** * Outputs *)
(** What the application is told: session.py:81-108. *)
Inductive aitem :=
| AConnect (user : list Z) (haspw : bool) (acct data : list Z)
| AData (b : list Z) | AInterrupt (b : list Z) | AAccept (b : list Z)
| AReject (reason : Z) (b : list Z) | ADisconnect (reason : Z) (b : list Z) | ARun.
Inductive areply := PError | PBind (handle : Z) | PConnecting (handle : Z) | PUnknownNode.
Inductive sout :=
| OReject (nsp reason : Z)          (* nspconn.reject *)
| OAuthEvent (nsp : Z)              (* access control reject event *)
| OStart (app : Z) (o : obj) (uid : option Z) (gid : Z)  (* process or module started *)
| OItem (app handle : Z) (i : aitem) (* delivered *)
| OReply (app : Z) (r : areply)
| ONsp (nsp : Z)                    (* accept, data, ... passed to NSP *)
| OClose (nsp : Z)                  (* reject, disconnect or abort for the application *)
| OAbort (nsp : Z)                  (* abort or reject with OBJ_FAIL *)
| OCleanup (app : Z).               (* the connector's exception handler ran *)

(** BaseConnector.dispatch's exception handler, session.py:774-789.  Calls to
    NSP may refuse (WrongState, ignored).  Note that [self.conns] is left as
    it is. *)
Fixpoint cleanup_loop (s : sess) (l : list entry) : sess * list sout * option exn :=
  match l with
  | [] => (s, [], None)
  | EListen o :: t =>
      match unregister s o with
      | (s, Some e) => (s, [], Some e)
      | (s, None) => cleanup_loop s t
      end
  | EConn n :: t =>
      match del Z.eqb (s_conns s) n with
      | Err e => (s, [OAbort n], Some e)
      | Ok d => let '(s, o, x) := cleanup_loop (with_conns s d) t in (s, OAbort n :: o, x)
      end
  end.
Definition cleanup (s : sess) (app : Z) : sess * list sout * option exn :=
  let '(s, o, x) := cleanup_loop s (map snd (appget s app)) in (s, OCleanup app :: o, x).

(** BaseConnector.dispatch for an item of connection [nsp], session.py:757-773;
    [sent] tells whether the application took it (dispatch2 without
    exception). *)
Definition app_dispatch (s : sess) (app handle nsp : Z) (closes : bool) (i : aitem) (sent : bool) : sess * list sout * option exn :=
  let first :=
    if closes then let* d := del Z.eqb (appget s app) handle in Ok (setapp s app d)
    else match dget Z.eqb (appget s app) handle with
         | Some (EConn n) => if n =? nsp then Ok s else Err EAssert
         | Some (EListen _) => Err EAssert
         | None => Ok (setapp s app (dset Z.eqb (appget s app) handle (EConn nsp)))
         end in
  match first with
  | Err e => (s, [], Some e)
  | Ok s => if sent then (s, [OItem app handle i], None) else cleanup s app
  end.

(** * Incoming connections *)
Definition APPL : Z := 0. Definition NO_OBJ : Z := 4. Definition BAD_FMT : Z := 5. Definition BAD_AUTH : Z := 34. Definition OBJ_FAIL : Z := 38.

(** Object lookup, session.py:566-570. *)
Definition lookup (s : sess) (d : enduser) : option obj :=
  match d with
  | EU0 n => numget (s_num s) n
  | EU1 nm | EU2 _ _ nm => nameget (s_name s) (upper nm)
  end.
Definition truthy (u : option Z) : bool := match u with Some v => negb (v =? 0) | None => false end.
(** session.py:608-647: accepted?, and the user and group id to use. *)
Definition authorize (e : env) (o : obj) (m : sci) : bool * option Z * Z :=
  if leqb (o_auth o) s_off then (true, o_uid o, o_gid o)
  else if negb (nonempty (sc_user m)) || negb (nonempty (sc_pass m)) then
    (leqb (o_auth o) s_login && truthy (o_uid o), o_uid o, o_gid o)
  else if leqb (o_auth o) s_login then
    match getpw e (lower (sc_user m)) with
    | None => (false, o_uid o, o_gid o)
    | Some (u, g) => (pam e (lower (sc_user m)) (sc_pass m), Some u, g)
    end
  else (pam e (lower (sc_user m)) (sc_pass m), o_uid o, o_gid o).

(** Can the application be started: session.py:678-689. *)
Inductive startres := StOk | StNotFound | StFail.
(** Session.dispatch of a connect, session.py:546-690. *)
Definition sess_in (e : env) (s : sess) (nsp : Z) (payload : list Z) (st : startres) (sent : bool) : res (sess * list sout) :=
  match dget Z.eqb (s_conns s) nsp with
  | Some _ => Ok (s, [])   (* else branch: unexpected work item, 723-725 *)
  | None =>
    match sci_dec payload with
    | Err EDecode => Ok (s, [OReject nsp BAD_FMT])
    | Err x => Err x
    | Ok m =>
      match lookup s (sc_dst m) with
      | None => Ok (s, [OReject nsp NO_OBJ])
      | Some o =>
        let '(ok, uid, gid) := authorize e o m in
        if negb ok then Ok (s, [OAuthEvent nsp; OReject nsp BAD_AUTH])
        else
          let auth := negb (leqb (o_auth o) s_off) in
          let item := AConnect (if auth then sc_user m else []) (auth && nonempty (sc_pass m)) (if auth then sc_acct m else []) (sc_data m) in
          let h := s_next s in
          let s := bump s in
          let setc s c := with_conns s (dset Z.eqb (s_conns s) nsp {| c_handle := h; c_client := c |}) in
          match o_kind o, st with
          | KApi _, _ | _, StOk =>
              let '(app, s, o1) := match o_kind o with
                                   | KApi a => (a, s, [])
                                   | _ => (s_next s, bump (setapp s (s_next s) []), [OStart (s_next s) o uid gid])
                                   end in
              let '(s, o2, x) := app_dispatch (setc s (Some app)) app h nsp false item sent in
              match x with
              | None => Ok (s, o1 ++ o2)
              | Some _ => Ok (s, o1 ++ o2 ++ [OReject nsp OBJ_FAIL])
              end
          | _, StNotFound => Ok (setc s None, [OReject nsp NO_OBJ])
          | _, StFail => Ok (setc s None, [OReject nsp OBJ_FAIL])
          end
      end
    end
  end.

(** * Items of existing connections, session.py:691-726 *)
Inductive nitem :=
| NIData (b : list Z) | NIInt (b : list Z) | NIConf (b : list Z)
| NIDisc (reject : bool) (reason : Z) (b : list Z) | NIRun | NIOther.
Definition to_aitem (i : nitem) : option aitem :=
  match i with
  | NIData b => Some (AData b) | NIInt b => Some (AInterrupt b) | NIConf b => Some (AAccept b)
  | NIDisc true r b => Some (AReject r b) | NIDisc false r b => Some (ADisconnect r b)
  | NIRun => Some ARun | NIOther => None
  end.
Definition closing (i : nitem) : bool := match i with NIDisc _ _ _ => true | _ => false end.
Definition sess_item (s : sess) (nsp : Z) (i : nitem) (sent : bool) : res (sess * list sout) :=
  match dget Z.eqb (s_conns s) nsp with
  | None => Ok (s, [])
  | Some c =>
      match to_aitem i with
      | None => Ok (s, [])
      | Some a =>
          let s := if closing i then with_conns s (ddel Z.eqb (s_conns s) nsp) else s in
          match c_client c with
          | None => Err EAttr
          | Some app =>
              match app_dispatch s app (c_handle c) nsp (closing i) a sent with
              | (s, o, None) => Ok (s, o)
              | (_, _, Some x) => Err x
              end
          end
      end
  end.

(** * Requests from applications, session.py:803-940 *)
(** What NSP answers: done, a DNAException (e.g. WrongState), another
    exception. *)
Inductive nres := NOk | NDna | NExc.
Inductive req :=
| RUse (h : Z) (r : nres)            (* accept, interrupt, data, setsockopt *)
| RClose (h : Z) (r : nres)          (* reject, disconnect, abort *)
| RConnect (nsp : Z) (r : nres)
| RConnectUnknown                    (* nsp.UnknownNode *)
| RBind (num : Z) (name auth : list Z)
| RInvalid                           (* no such request *)
| RBadArgs.                          (* wrong arguments: TypeError *)

(** The request itself: state, outputs, and the reply or exception; [None]
    stands for an exception other than DNAException. *)
Definition act (e : env) (s : sess) (app : Z) (r : req) : sess * list sout * option (option areply) :=
  match r with
  | RUse h n =>
      match dget Z.eqb (appget s app) h with
      | Some (EConn c) => match n with NOk => (s, [ONsp c], Some None) | NDna => (s, [], Some (Some PError)) | NExc => (s, [], None) end
      | _ => (s, [], None)   (* KeyError, or a listener: AttributeError *)
      end
  | RClose h n =>
      match dget Z.eqb (appget s app) h with
      | Some (EConn c) =>
          match n with
          | NOk => match del Z.eqb (s_conns s) c with
                   | Ok d => let s := with_conns s d in (setapp s app (ddel Z.eqb (appget s app) h), [OClose c], Some None)
                   | Err _ => (s, [OClose c], None)
                   end
          | NDna => (s, [], Some (Some PError))
          | NExc => (s, [], None)
          end
      | _ => (s, [], None)   (* KeyError, or a listener: TypeError, AttributeError *)
      end
  | RConnect c n =>
      match n with
      | NOk => let h := s_next s in
               let s := bump (with_conns s (dset Z.eqb (s_conns s) c {| c_handle := h; c_client := Some app |})) in
               (setapp s app (dset Z.eqb (appget s app) h (EConn c)), [ONsp c], Some (Some (PConnecting h)))
      | NDna => (s, [], Some (Some PError))
      | NExc => (s, [], None)
      end
  | RConnectUnknown => (s, [], Some (Some PUnknownNode))
  | RBind num name auth =>
      match bind_obj e s app num name auth with
      | Ok (s, o) => (s, [], Some (Some (PBind (o_id o))))
      | Err _ => (s, [], Some (Some PError))
      end
  | RInvalid => (s, [], Some (Some PError))
  | RBadArgs => (s, [], None)
  end.
(** DictConnector.dispatch2 and BaseConnector.dispatch for a request. *)
Definition sess_req (e : env) (s : sess) (app : Z) (r : req) (sent : bool) : res (sess * list sout) :=
  let fail s o := let '(s, o2, x) := cleanup s app in match x with None => Ok (s, o ++ o2) | Some x => Err x end in
  match act e s app r with
  | (s, o, None) => fail s o
  | (s, o, Some None) => Ok (s, o)
  | (s, o, Some (Some p)) => if sent then Ok (s, o ++ [OReply app p]) else fail s o
  end.
(** The application is gone (Exited, session.py:892-893). *)
Definition sess_exit (s : sess) (app : Z) : res (sess * list sout) :=
  match cleanup s app with (s, o, None) => Ok (s, o) | (_, _, Some x) => Err x end.

(** * Steps *)
Inductive sstep :=
| SOpen                                          (* first request of an API client, 475-478 *)
| SIn (nsp : Z) (payload : list Z) (st : startres) (sent : bool)
| SItem (nsp : Z) (i : nitem) (sent : bool)
| SReq (app : Z) (r : req) (sent : bool)
| SExit (app : Z).
Definition sess_step (e : env) (s : sess) (x : sstep) : res (sess * list sout) :=
  match x with
  | SOpen => Ok (bump (setapp s (s_next s) []), [])
  | SIn n p st b => sess_in e s n p st b
  | SItem n i b => sess_item s n i b
  | SReq a r b => sess_req e s a r b
  | SExit a => sess_exit s a
  end.
Fixpoint sess_run (e : env) (s : sess) (l : list sstep) : res (sess * list sout) :=
  match l with
  | [] => Ok (s, [])
  | x :: t => let* (s, o) := sess_step e s x in let* (s, o2) := sess_run e s t in Ok (s, o ++ o2)
  end.

(** * The initial database, Session.__init__, session.py:417-449 *)
Inductive cobj := CDisable (num : Z) (name : list Z) | CObj (kind : okind) (num : Z) (name auth : list Z) (uid : option Z) (gid : Z).
Definition sess_cfg1 (s : sess) (c : cobj) : sess :=
  match c with
  | CDisable num name =>
      match (if num =? 0 then nameget (s_name s) name else numget (s_num s) num) with
      | Some o => fst (unregister s o)    (* KeyError is logged *)
      | None => s
      end
  | CObj k num name auth uid gid =>
      register (bump s) {| o_id := s_next s; o_kind := k; o_num := num; o_name := upper name; o_auth := lower auth; o_uid := uid; o_gid := gid |}
  end.
Definition sess0 : sess := {| s_num := []; s_name := []; s_conns := []; s_apps := []; s_next := 1 |}.
Definition sess_init (l : list cobj) : sess := fold_left sess_cfg1 l sess0.
