(** Model of the comparisons of utils/math_utils.py 15-92 (EndfFloat) with Python's rules for
    the reflected operators. *)
From Coq Require Import Ascii String ZArith Bool Lia List.
From Coq Require Import Floats.SpecFloat.
From Verif Require Import PyBase PyFloat ModelFortran ModelNum ModelRecipe.
Import ListNotations.
Open Scope Z_scope.

(** the six comparisons of ints and floats in CPython, by exact value; nan differs from
    everything and is not ordered *)
Definition builtin_rel (r : rel) (a b : num) : bool :=
  match r with
  | REq => num_eqb a b
  | RNe => negb (num_eqb a b)
  | RLt => num_ltb a b
  | RGt => num_ltb b a
  | RLe => num_leb a b
  | RGe => num_leb b a
  end.

(** the operator Python tries on the right operand *)
Definition reflected (r : rel) : rel :=
  match r with REq => REq | RNe => RNe | RLt => RGt | RGt => RLt | RLe => RGe | RGe => RLe end.

(** math_utils.py 54-70: [self._value OP float(other)] *)
Definition endf_rel (r : rel) (value : spec_float) (other : num) : result bool :=
  do g <- as_float other; Ok (builtin_rel r (NFlt value) (NFlt g)).

(** [a OP b]: the method of an EndfFloat on the left; ints and floats do not know EndfFloat,
    so that the reflected method of an EndfFloat on the right is called. 74-84 are never
    called: [__rlt__] etc. are no special methods of Python. Simplification: operands are
    numbers. *)
Definition py_rel (r : rel) (a b : num) : result bool :=
  match a, b with
  | NEndf f _, _ => endf_rel r f b
  | _, NEndf g _ => endf_rel (reflected r) g a
  | _, _ => Ok (builtin_rel r a b)
  end.

(** math_utils.py 42: EndfFloat(value, orig_str) *)
Definition endf_float (value : num) (orig : str) : result num :=
  do f <- as_float value; Ok (NEndf f orig).

(** math_utils.py 91-92: int(x) *)
Definition endf_int (f : spec_float) : result Z :=
  match f with
  | S754_infinity _ => Err OverflowError
  | S754_nan => Err ValueError
  | _ => Ok (Z.quot (sf_num f) (sf_den f))
  end.
