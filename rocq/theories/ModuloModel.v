(** Model of decnet/modulo.py: sequence number arithmetic. *)
From Verif Require Import Base.

(** modulo.py:17-26, the class attributes computed by the metaclass from the
    modulus: [maxdelta] and [undef] (None is modelled as an option). *)
Definition maxdelta (m : Z) : Z :=
  let q := m / 2 in let r := m mod 2 in
  if r =? 0 then q - 1 else q.
Definition undef (m : Z) : option Z :=
  let q := m / 2 in let r := m mod 2 in
  if r =? 0 then Some q else None.

(** modulo.py:51-57 [Mod.__new__]. The abstract-class check (52-54) is not
    modelled: every use has a modulus. *)
Definition mod_new (m v : Z) : res Z :=
  if (0 <=? v) && (v <? m) then Ok v else Err EOverflow.

(** Comparison results.  [NotImplemented] from both the operation and its
    reflection makes Python raise TypeError; since __gt__ of the reflected
    operand computes the same delta (lines 67 and 87) the outcome is TypeError,
    so it is modelled as [Err EType]. *)
Definition is_undef (m delta : Z) : bool :=
  match undef m with Some u => delta =? u | None => false end.

(** modulo.py:62-70 [__lt__], both operands of the same modulus (the plain int
    operand case is [int.__lt__] and is not needed by the model). *)
Definition mod_lt (m a b : Z) : res bool :=
  let delta := (b - a) mod m in
  if is_undef m delta then Err EType
  else Ok ((0 <? delta) && (delta <=? maxdelta m)).

(** modulo.py:72-80 [__le__]. *)
Definition mod_le (m a b : Z) : res bool :=
  let delta := (b - a) mod m in
  if is_undef m delta then Err EType
  else Ok (delta <=? maxdelta m).

(** modulo.py:82-90 [__gt__]. *)
Definition mod_gt (m a b : Z) : res bool :=
  let delta := (a - b) mod m in
  if is_undef m delta then Err EType
  else Ok ((0 <? delta) && (delta <=? maxdelta m)).

(** modulo.py:92-100 [__ge__]. *)
Definition mod_ge (m a b : Z) : res bool :=
  let delta := (a - b) mod m in
  if is_undef m delta then Err EType
  else Ok (delta <=? maxdelta m).

(** modulo.py:102-106 [__add__], [__sub__]; both go through the constructor. *)
Definition mod_add (m a i : Z) : res Z := mod_new m ((a + i) mod m).
Definition mod_sub (m a i : Z) : res Z := mod_new m ((a - i) mod m).

(** modulo.py:108-118,139-142: multiplication, floor division, remainder,
    shift, power.  Negative shift counts and exponents raise in Python and are
    outside the model (nat arguments here). Division by zero raises
    ZeroDivisionError, modelled as [Err EValue]. *)
Definition mod_mul (m a i : Z) : res Z := mod_new m ((a * i) mod m).
Definition mod_floordiv (m a i : Z) : res Z :=
  if i =? 0 then Err EValue else mod_new m ((a / i) mod m).
Definition mod_mod (m a i : Z) : res Z :=
  if i =? 0 then Err EValue else mod_new m ((a mod i) mod m).
Definition mod_lshift (m a : Z) (n : nat) : res Z :=
  mod_new m ((a * 2 ^ Z.of_nat n) mod m).
Definition mod_pow (m a : Z) (n : nat) : res Z :=
  mod_new m ((a ^ Z.of_nat n) mod m).
