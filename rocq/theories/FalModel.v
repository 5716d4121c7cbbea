(** The file access listener: which files a request can name.
    /repo/pydecnet/decnet/applications/fal.py, applyroot (35-41) and the
    choice of files in files (50-80), used by doget and dodir.

    Strings are lists of character codes.  From the Python library,
    posixpath.normpath is modelled as documented and implemented; glob.glob is
    modelled by what it can return: the pattern with each component that has a
    wildcard replaced by the name of a directory entry (so never "." or "..").
    Symbolic links, the messages sent for each file and the reading of files
    are not modelled. *)
From Verif Require Import Base.

Definition SL : Z := 47.  (* / *)
Definition DOT : list Z := [46].
Definition DOTDOT : list Z := [46; 46].
(** str.split ("/"). *)
Fixpoint split_ (cur s : list Z) : list (list Z) :=
  match s with
  | [] => [rev cur]
  | c :: t => if c =? SL then rev cur :: split_ [] t else split_ (c :: cur) t
  end.
Definition split (s : list Z) : list (list Z) := split_ [] s.
(** "/".join. *)
Fixpoint join (l : list (list Z)) : list Z :=
  match l with [] => [] | [x] => x | x :: t => x ++ SL :: join t end.
(** posixpath.normpath: the loop over the components, [st] is new_comps in
    reverse. *)
Fixpoint ncomps (abs : bool) (st : list (list Z)) (l : list (list Z)) : list (list Z) :=
  match l with
  | [] => rev st
  | c :: t =>
      if leqb c [] || leqb c DOT then ncomps abs st t
      else if negb (leqb c DOTDOT) || (negb abs && match st with [] => true | _ => false end) ||
              match st with x :: _ => leqb x DOTDOT | [] => false end
           then ncomps abs (c :: st) t
           else match st with _ :: st' => ncomps abs st' t | [] => ncomps abs st t end
  end.
(** Two leading slashes are kept, three or more become one. *)
Definition slashes (s : list Z) : nat :=
  match s with
  | a :: t =>
      if a =? SL then
        match t with
        | b :: u => if b =? SL then match u with c :: _ => if c =? SL then 1%nat else 2%nat | [] => 2%nat end else 1%nat
        | [] => 1%nat
        end
      else 0%nat
  | [] => 0%nat
  end.
Definition normpath (s : list Z) : list Z :=
  match s with
  | [] => DOT
  | _ => let n := slashes s in
         let p := repeat SL n ++ join (ncomps (negb (Nat.eqb n 0)) [] (split s)) in
         match p with [] => DOT | _ => p end
  end.
(** while s.startswith (".."): s = s[3:] *)
Definition dotted (s : list Z) : bool := match s with a :: b :: _ => (a =? 46) && (b =? 46) | _ => false end.
Fixpoint strip (fuel : nat) (s : list Z) : list Z :=
  match fuel with
  | O => s
  | S f => if dotted s then strip f (skipn 3 s) else s
  end.
(** applyroot, 35-41, with a root directory; root is an absolute path, so the
    last abspath is normpath. *)
Definition applyroot (root s : list Z) : list Z :=
  let s := normpath s in
  let s := strip (length s) s in
  normpath (normpath (root ++ SL :: s)).
(** str.endswith, and pn[:-n]. *)
Definition ends (s suf : list Z) : bool :=
  Nat.leb (length suf) (length s) && leqb (skipn (length s - length suf) s) suf.
Definition drop_end (n : nat) (s : list Z) : list Z := firstn (length s - n) s.
(** 60-64: the pattern without version and file type wildcards. *)
Definition trim (pn : list Z) : list Z :=
  let pn := if ends pn [59; 42] then drop_end 2 pn else pn in
  if ends pn [42; 46; 42] then drop_end 3 pn else pn.
(** 65-68: for a directory request, os.path.join (pn, "*") if pn is a
    directory. *)
Definition pattern (root spec : list Z) (dirop isdir : bool) : list Z :=
  let pn := trim (applyroot root spec) in
  if dirop && isdir then (if ends pn [SL] then pn ++ [42] else pn ++ [SL; 42]) else pn.
(** glob.glob. *)
Definition magic (c : list Z) : bool := existsb (fun x => (x =? 42) || (x =? 63) || (x =? 91)) c.
Definition entry (c : list Z) : Prop := c <> [] /\ ~ In SL c /\ c <> DOT /\ c <> DOTDOT.
Definition globs (pat fn : list Z) : Prop :=
  exists l, fn = join l /\ Forall2 (fun p f => if magic p then entry f else f = p) (split pat) l.
