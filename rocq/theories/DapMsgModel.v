(** The messages of DAP: dap_packets.py 32-290 (field kinds, conditional
    fields, DapBase.decode's handling of omitted fields) and the layouts 290-1246.
    Values and attributes as in PacketModel.v; attribute names are the numbers
    their text stands for.  DapModel.v has the header's lengths, blocking and
    splitting; here [buf] is one message. *)
From Coq Require Import String Ascii.
From Verif Require Import Base PacketModel.

(** A name, as a number to base 256. *)
Definition nm (s : string) : name := FN (fold_left (fun v a => v * 256 + Z.of_nat (nat_of_ascii a)) (list_ascii_of_string s) 0).
Definition bit (s : string) (start bits : Z) : bme := {| be_name := nm s; be_start := start; be_bits := bits; be_const := CNone |}.
(** One that has a class attribute 0 (287-288). *)
Definition bit0 (s : string) (start bits : Z) : bme := {| be_name := nm s; be_start := start; be_bits := bits; be_const := CRo (VInt 0) |}.

Inductive fld :=
| FTy (t : ty) (n : name) (c : const)   (* a field of packet.py *)
| FBMX (m : nat) (els : list bme)       (* BMEX, 96-118 *)
| FBMap (k : nat) (els : list bme)      (* packet.BM *)
| FInt (m : Z) (n : name)               (* I_int, 120-143 *)
| FAV (k : nat) (n : name)              (* AV, 145-167 *)
| FVer (k : nat) (n : name).            (* DapVersion, common.py 573-601 *)
Inductive drow :=
| DRow (f : fld)
| DIf (g : name) (f : fld)                      (* IF, 35-55 *)
| DIfElse (g : name) (d : list Z) (f : fld)     (* IFELSE, 57-77 *)
| DDef (d : list Z) (f : fld).                  (* DEF, 79-94 *)

(** int.bit_length *)
Definition bit_length (v : Z) : Z := if v =? 0 then 0 else Z.log2 (Z.abs v) + 1.
(** I_int.encode 124-129 (maxlen at most 255). *)
Definition int_enc (m v : Z) : res (list Z) :=
  let l := (bit_length v + 7) / 8 in
  if m <? l then Err EDecode else let* b := to_bytes (Z.to_nat l) v in Ok (l :: b).
(** AV.encode 149-157. *)
Definition av_enc (k : nat) (s : list Z) : res (list Z) :=
  if forallb byte_okb s then bv_enc k s else Err EValue.
(** encode_row 249-260.  A missing version has no default value. *)
Definition enc_fld (f : fld) (a : attrs) : res (list Z) :=
  match f with
  | FTy t n c => enc_ty t (match getattr a n c with Some v => v | None => dflt t end)
  | FBMX m els => let* v := bm_fold els a 0 in ex_enc m v
  | FBMap k els => bm_enc k els a
  | FInt m n => match get a n with Some (VInt v) => int_enc m v | None => int_enc m 0 | _ => Err EType end
  | FAV k n => match get a n with Some (VStr s) => av_enc k s | None => av_enc k [] | _ => Err EType end
  | FVer k n => match get a n with
                | Some (VBytes b) => if zlen b =? Z.of_nat k then Ok b else Err EValue
                | _ => Err EType
                end
  end.
(** decode_row 262-271: exceptions of simple fields become AtField. *)
Definition dec_fld (f : fld) (a : attrs) (buf : list Z) : res (attrs * list Z) :=
  match f with
  | FTy t n c => atfield (let* (v, r) := dec_ty t buf in let* a' := setattr a n c v in Ok (a', r))
  | FBMX m els => let* (v, r) := ex_dec m buf in let* a' := bm_unpack els v a in Ok (a', r)
  | FBMap k els => let* (h, r) := fixed_dec k buf in let* a' := bm_unpack els (le_dec h) a in Ok (a', r)
  | FInt m n => let* (h, r) := image_dec m buf in Ok ((n, VInt (le_dec h)) :: a, r)
  | FAV k n => let* (h, r) := fixed_dec k buf in Ok ((n, VStr h) :: a, r)
  | FVer k n => let* (h, r) := fixed_dec k buf in Ok ((n, VBytes h) :: a, r)
  end.
(** getattr (msg, flag, 0) as a condition. *)
Definition flag (a : attrs) (g : name) : bool :=
  match get a g with
  | Some (VInt v) => negb (v =? 0)
  | Some (VBytes l) | Some (VStr l) => negb (zlen l =? 0)
  | Some (VList l) => negb (zlen l =? 0)
  | Some (VPkt _) => true
  | None => false
  end.
Definition enc_drow (r : drow) (a : attrs) : res (list Z) :=
  match r with
  | DRow f | DDef _ f => enc_fld f a
  | DIf g f | DIfElse g _ f => if flag a g then enc_fld f a else Ok []
  end.
(** [dflt]: is [buf] the string DAPDEFAULT? *)
Definition dec_drow (isdef : bool) (r : drow) (a : attrs) (buf : list Z) : res (attrs * list Z) :=
  match r with
  | DRow f => dec_fld f a buf
  | DIf g f => if flag a g then dec_fld f a buf else Ok (a, buf)
  | DIfElse g d f => if flag a g then dec_fld f a buf else let* (a', _) := dec_fld f a d in Ok (a', buf)
  | DDef d f => dec_fld f a (if isdef then d else buf)
  end.
(** Packet.encode, packet.py 1006-1027. *)
Fixpoint enc_msg (l : list drow) (a : attrs) : res (list Z) :=
  match l with
  | [] => Ok []
  | r :: t => let* b := enc_drow r a in let* c := enc_msg t a in Ok (b ++ c)
  end.
(** DAPDEFAULT 33. *)
Definition dapdefault : list Z := repeat 0 128.
(** The loop of DapBase.decode, 235-244. *)
Fixpoint dec_loop (l : list drow) (done : bool) (a : attrs) (buf : list Z) : res (attrs * list Z * bool) :=
  match l with
  | [] => Ok (a, buf, done)
  | r :: t =>
      let* (a', buf') := dec_drow done r a (if done then dapdefault else buf) in
      dec_loop t (match buf' with [] => true | _ => done end) a' buf'
  end.
(** The attributes, and the data that is printed on standard output (243-244). *)
Definition dec_msg (l : list drow) (buf : list Z) : res (attrs * list Z) :=
  let* (x, done) := dec_loop l false [] buf in
  Ok (fst x, if done then [] else snd x).

(** * The layouts *)
(** BM_FOP, 169-192. *)
Definition fop : fld :=
  FBMX 6 [bit "fb_rwo" 0 1; bit "fb_rwc" 1 1; bit "fb_pos" 3 1; bit "fb_dlk" 4 1; bit "fb_locked" 6 1;
        bit "fb_ctg" 7 1; bit "fb_sup" 8 1; bit "fb_nef" 9 1; bit "fb_tmp" 10 1; bit "fb_mkd" 11 1;
        bit "fb_dmo" 13 1; bit "fb_wck" 14 1; bit "fb_rck" 15 1; bit "fb_cif" 16 1; bit "fb_sqo" 18 1;
        bit "fb_mxv" 19 1; bit "fb_spl" 20 1; bit "fb_scf" 21 1; bit "fb_dlt" 22 1; bit "fb_cbt" 23 1;
        bit "fb_dwf" 25 1; bit "fb_tef" 26 1; bit "fb_opf" 27 1].
(** DapHeader, 275-285. *)
Definition header (t : Z) : list drow :=
  [ DRow (FTy (TB 1) (nm "type") (CAny (VInt t)));
    DRow (FBMX 5 [bit "m_streamid" 0 1; bit "m_length" 1 1; bit "m_len256" 2 1; bit "m_bitcnt" 3 1; bit0 "m_syspec" 5 1;
        bit0 "m_seg" 6 1]);
    DIf (nm "m_streamid") (FTy (TB 1) (nm "streamid") CNone);
    DIf (nm "m_length") (FTy (TB 1) (nm "length") CNone);
    DIf (nm "m_len256") (FTy (TB 1) (nm "len256") CNone);
    DIf (nm "m_bitcnt") (FTy (TB 1) (nm "bitcnt") CNone) ].
(** Config, 291-354. *)
Definition l_config : list drow :=
  header 1 ++
  [ DRow (FTy (TB 2) (nm "bufsiz") CNone);
    DRow (FTy (TB 1) (nm "ostype") CNone);
    DRow (FTy (TB 1) (nm "filesys") CNone);
    DRow (FVer 5 (nm "version"));
    DRow (FBMX 12 [bit "prealloc" 0 1; bit "fo_seq" 1 1; bit "fo_rel" 2 1; bit "seq_xfer" 5 1; bit "random_rec" 6 1;
        bit "random_blk" 7 1; bit "random_key" 8 1; bit "random_rfa" 10 1; bit "isam" 11 1; bit "mode_switch" 12 1;
        bit "append" 13 1; bit "submit" 14 1; bit "streams" 16 1; bit "blocking" 18 1; bit "unres_blocking" 19 1;
        bit "len2" 20 1; bit "cksum" 21 1; bit "key_xa" 22 1; bit "alloc_xa" 23 1; bit "sum_xa" 24 1; bit "dir" 25 1;
        bit "dattim_xa" 26 1; bit "fprot_xa" 27 1; bit "spool" 29 1; bit "submit_op" 30 1; bit "delete" 31 1;
        bit "seq_ra" 33 1; bit "bitcnt" 35 1; bit "warn" 36 1; bit "rename" 37 1; bit "glob" 38 1; bit "name" 40 1;
        bit "seg" 41 1; bit "close_att" 42 1; bit "close_tim" 43 1; bit "close_pro" 44 1; bit "close_nam" 45 1;
        bit "cre_retattr" 46 1; bit "name3" 47 1; bit "rename_att" 48 1; bit "rename_tim" 49 1;
        bit "rename_pro" 50 1; bit "blkcnt" 51 1; bit "octal_versions" 52 1; bit "coll_table" 53 1;
        bit "stream_access_stm" 54 1; bit "stream_access_any" 55 1; bit "block_access" 56 1;
        bit "access_switch" 57 1; bit "attribute_storage" 58 1; bit "non_8bit_data" 59 1; bit "stm_default" 60 1;
        bit "isam_prolog_1" 61 1; bit "isam_prolog_2" 62 1; bit "isam_prolog_3" 63 1; bit "extended_syscap" 72 1]) ].
(** Attrib, 359-442. *)
Definition l_attrib : list drow :=
  header 2 ++
  [ DRow (FBMX 6 [bit "m_datatype" 0 1; bit "m_org" 1 1; bit "m_rfm" 2 1; bit "m_rat" 3 1; bit "m_bls" 4 1; bit "m_mrs" 5 1;
        bit "m_alq" 6 1; bit "m_bks" 7 1; bit "m_fsz" 8 1; bit "m_mrn" 9 1; bit "m_runsys" 10 1; bit "m_deq" 11 1;
        bit "m_fop" 12 1; bit "m_bsz" 13 1; bit "m_dev" 14 1; bit "m_lrl" 16 1; bit "m_hbk" 17 1; bit "m_ebk" 18 1;
        bit "m_ffb" 19 1; bit "m_sbn" 20 1]);
    DIfElse (nm "m_datatype") [2] (FBMX 2 [bit "ascii" 0 1; bit "image" 1 1; bit "compressed" 3 1; bit "executable" 4 1; bit "privileged" 5 1;
        bit "sensitive" 7 1]);
    DIf (nm "m_org") (FTy (TB 1) (nm "org") CNone);
    DIfElse (nm "m_rfm") [1] (FTy (TB 1) (nm "rfm") CNone);
    DIf (nm "m_rat") (FBMX 3 [bit "fb_ftn" 0 1; bit "fb_cr" 1 1; bit "fb_prn" 2 1; bit "fb_blk" 3 1; bit "fb_emb" 4 1; bit "fb_lsa" 6 1;
        bit "fb_macy11" 7 1]);
    DIfElse (nm "m_bls") [0; 2] (FTy (TB 2) (nm "bls") CNone);
    DIf (nm "m_mrs") (FTy (TB 2) (nm "mrs") CNone);
    DIf (nm "m_alq") (FInt 5 (nm "alq"));
    DIf (nm "m_bks") (FTy (TB 1) (nm "bks") CNone);
    DIf (nm "m_fsz") (FTy (TB 1) (nm "fsz") CNone);
    DIf (nm "m_mrn") (FInt 5 (nm "mrn"));
    DIf (nm "m_runsys") (FTy (TA 40) (nm "runsys") CNone);
    DIf (nm "m_deq") (FTy (TB 2) (nm "deq") CNone);
    DIf (nm "m_fop") fop;
    DIfElse (nm "m_bsz") [8] (FTy (TB 1) (nm "bsz") CNone);
    DIf (nm "m_dev") (FBMX 6 [bit "fb_rec" 0 1; bit "fb_ccl" 1 1; bit "fb_trm" 2 1; bit "fb_mdi" 3 1; bit "fb_sdi" 4 1; bit "fb_sqd" 5 1;
        bit "fb_null" 6 1; bit "fb_fod" 7 1; bit "fb_share" 8 1; bit "fb_spl" 9 1; bit "fb_mnt" 10 1;
        bit "fb_dmt" 11 1; bit "fb_all" 12 1; bit "fb_idv" 13 1; bit "fb_odv" 14 1; bit "fb_swl" 15 1;
        bit "fb_avl" 16 1; bit "fb_elg" 17 1; bit "fb_mbx" 18 1; bit "fb_rtm" 19 1; bit "fb_rad" 20 1;
        bit "fb_rdchk" 21 1; bit "fb_wrchk" 22 1; bit "fb_foreign" 23 1; bit "fb_network" 24 1; bit "fb_generic" 25 1]);
    DIf (nm "m_lrl") (FTy (TB 2) (nm "lrl") CNone);
    DIf (nm "m_hbk") (FInt 5 (nm "hbk"));
    DIf (nm "m_ebk") (FInt 5 (nm "ebk"));
    DIf (nm "m_ffb") (FTy (TB 2) (nm "ffb") CNone);
    DIf (nm "m_sbn") (FInt 5 (nm "sbn")) ].
(** Access, 458-490. *)
Definition l_access : list drow :=
  header 3 ++
  [ DRow (FTy (TB 1) (nm "accfunc") CNone);
    DRow (FBMX 5 [bit "err_nonfatal" 0 1; bit "checksum" 3 1; bit "go_nogo" 4 1]);
    DRow (FTy (TA 255) (nm "filespec") CNone);
    DDef [2] (FBMX 3 [bit "fb_put" 0 1; bit "fb_get" 1 1; bit "fb_del" 2 1; bit "fb_upd" 3 1; bit "fb_trn" 4 1; bit "fb_bio" 5 1;
        bit "fb_bro" 6 1]);
    DDef [2] (FBMX 3 [bit "shr_fb_put" 0 1; bit "shr_fb_get" 1 1; bit "shr_fb_del" 2 1; bit "shr_fb_upd" 3 1; bit "fb_mse" 4 1;
        bit "fb_upi" 5 1; bit "shr_fb_nil" 6 1]);
    DRow (FBMX 4 [bit "main" 0 1; bit "keydef" 1 1; bit "alloc" 2 1; bit "summary" 3 1; bit "date" 4 1; bit "fprot" 5 1;
        bit "name" 8 1; bit "name3" 9 1]) ].
(** Control, 502-524. *)
Definition l_control : list drow :=
  header 4 ++
  [ DDef [1] (FTy (TB 1) (nm "ctlfunc") CNone);
    DRow (FBMX 4 [bit "m_rac" 0 1; bit "m_key" 1 1; bit "m_krf" 2 1; bit "m_rop" 3 1]);
    DIf (nm "m_rac") (FTy (TB 1) (nm "rac") CNone);
    DIf (nm "m_key") (FTy (TI 255) (nm "key") CNone);
    DIf (nm "m_krf") (FTy (TB 1) (nm "krf") CNone);
    DIf (nm "m_rop") (FBMX 6 [bit "rb_eof" 0 1; bit "rb_fdl" 1 1; bit "rb_uif" 2 1; bit "rb_loa" 4 1; bit "rb_ulk" 5 1; bit "rb_tpt" 6 1;
        bit "rb_rah" 7 1; bit "rb_wbh" 8 1; bit "rb_kge" 9 1; bit "rb_kgt" 10 1; bit "rb_nlk" 11 1;
        bit "rb_rlk" 12 1; bit "rb_bio" 13 1]) ].
(** Continue, 548-548. *)
Definition l_continue : list drow :=
  header 5 ++
  [ DRow (FTy (TB 1) (nm "confunc") CNone) ].
(** Ack, 556. *)
Definition l_ack : list drow := header 6.
(** AccComplete, 560-562. *)
Definition l_acccomplete : list drow :=
  header 7 ++
  [ DRow (FTy (TB 1) (nm "cmpfunc") CNone);
    DRow fop;
    DRow (FTy (TB 2) (nm "check") CNone) ].
(** Data, 572-573. *)
Definition l_data : list drow :=
  header 8 ++
  [ DRow (FInt 8 (nm "recnum"));
    DDef [] (FTy TPAYLOAD (nm "payload") CNone) ].
(** Status, 577-582. *)
Definition l_status : list drow :=
  header 9 ++
  [ DRow (FBMap 2 [bit "miccode" 0 12; bit "maccode" 12 4]);
    DDef [] (FTy TPAYLOAD (nm "payload") CNone) ].
(** Date, 1117-1125. *)
Definition l_date : list drow :=
  header 13 ++
  [ DRow (FBMX 6 [bit "m_cdt" 0 1; bit "m_rdt" 1 1; bit "m_edt" 2 1; bit "m_rvn" 3 1]);
    DIf (nm "m_cdt") (FAV 18 (nm "cdt"));
    DIf (nm "m_rdt") (FAV 18 (nm "rdt"));
    DIf (nm "m_edt") (FAV 18 (nm "edt"));
    DIf (nm "m_rvn") (FTy (TB 2) (nm "rvn") CNone) ].
(** Prot, 1148-1199. *)
Definition l_prot : list drow :=
  header 14 ++
  [ DRow (FBMX 6 [bit "m_owner" 0 1; bit "m_protsys" 1 1; bit "m_protown" 2 1; bit "m_protgrp" 3 1; bit "m_protwld" 4 1]);
    DIf (nm "m_owner") (FTy (TA 40) (nm "owner") CNone);
    DIf (nm "m_protsys") (FBMX 3 [bit "s_noread" 0 1; bit "s_nowrite" 1 1; bit "s_noexec" 2 1; bit "s_nodel" 3 1; bit "s_noappend" 4 1;
        bit "s_nodir" 5 1; bit "s_noupdate" 6 1; bit "s_nochprot" 7 1; bit "s_noextend" 8 1; bit "s_rw" 0 2]);
    DIf (nm "m_protown") (FBMX 3 [bit "o_noread" 0 1; bit "o_nowrite" 1 1; bit "o_noexec" 2 1; bit "o_nodel" 3 1; bit "o_noappend" 4 1;
        bit "o_nodir" 5 1; bit "o_noupdate" 6 1; bit "o_nochprot" 7 1; bit "o_noextend" 8 1; bit "o_rw" 0 2]);
    DIf (nm "m_protgrp") (FBMX 3 [bit "g_noread" 0 1; bit "g_nowrite" 1 1; bit "g_noexec" 2 1; bit "g_nodel" 3 1; bit "g_noappend" 4 1;
        bit "g_nodir" 5 1; bit "g_noupdate" 6 1; bit "g_nochprot" 7 1; bit "g_noextend" 8 1; bit "g_rw" 0 2]);
    DIf (nm "m_protwld") (FBMX 3 [bit "w_noread" 0 1; bit "w_nowrite" 1 1; bit "w_noexec" 2 1; bit "w_nodel" 3 1; bit "w_noappend" 4 1;
        bit "w_nodir" 5 1; bit "w_noupdate" 6 1; bit "w_nochprot" 7 1; bit "w_noextend" 8 1; bit "w_rw" 0 2]) ].
(** Name, 1239-1244. *)
Definition l_name : list drow :=
  header 15 ++
  [ DRow (FBMX 3 [bit "filespec" 0 1; bit "filename" 1 1; bit "dirname" 2 1; bit "volname" 3 1]);
    DRow (FTy (TA 200) (nm "namespec") CNone) ].
Definition layouts : list (list drow) :=
  [l_config; l_attrib; l_access; l_control; l_continue; l_ack; l_acccomplete; l_data; l_status; l_date; l_prot; l_name].
