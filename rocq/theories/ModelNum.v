(** Python arithmetic on the numbers occurring in records (int, float, EndfFloat) and
    model of utils/math_utils.py 95-325 on numbers. *)
From Coq Require Import Ascii String ZArith Bool Lia List.
From Coq Require Import Floats.SpecFloat.
From Verif Require Import PyBase PyFloat ModelFortran.
Import ListNotations.
Open Scope Z_scope.

(** [float(v)]: OverflowError for an int beyond the range of floats *)
Definition as_float (v : num) : result spec_float :=
  match v with
  | NInt z => match round64_signed z 1 with
              | S754_infinity _ => Err OverflowError
              | f => Ok f
              end
  | NFlt f => Ok f
  | NEndf f _ => Ok f
  end.

(** a binary operation on two numbers: exact on ints, on floats otherwise; EndfFloat
    (math_utils.py 15-92) defines no arithmetic, hence TypeError *)
Definition arith (fi : Z -> Z -> Z) (ff : spec_float -> spec_float -> spec_float) (a b : num)
  : result num :=
  match a, b with
  | NInt x, NInt y => Ok (NInt (fi x y))
  | NEndf _ _, _ | _, NEndf _ _ => Err TypeError
  | _, _ => do x <- as_float a; do y <- as_float b; Ok (NFlt (ff x y))
  end.

(** [a + b], [a - b], [a * b] *)
Definition n_add : num -> num -> result num := arith Z.add (SFadd 53 1024).
Definition n_sub : num -> num -> result num := arith Z.sub (SFsub 53 1024).
Definition n_mul : num -> num -> result num := arith Z.mul (SFmul 53 1024).

(** [-a] *)
Definition n_neg (a : num) : result num :=
  match a with
  | NInt x => Ok (NInt (- x))
  | NFlt f => Ok (NFlt (SFopp f))
  | NEndf _ _ => Err TypeError
  end.

(** the quotient of two ints is the correctly rounded one (CPython long_true_divide) *)
Definition int_quot (x y : Z) : spec_float :=
  round64 (xorb (x <? 0) (y <? 0)) (Z.abs x) (Z.abs y).

Definition sf_is_zero (f : spec_float) : bool :=
  match f with S754_zero _ => true | _ => false end.

(** [a / b] *)
Definition n_div (a b : num) : result num :=
  match a, b with
  | NInt x, NInt y =>
      if y =? 0 then Err ZeroDivisionError else
      match int_quot x y with
      | S754_infinity _ => Err OverflowError
      | f => Ok (NFlt f)
      end
  | NEndf _ _, _ | _, NEndf _ _ => Err TypeError
  | _, _ =>
      do x <- as_float a; do y <- as_float b;
      if sf_is_zero y then Err ZeroDivisionError else Ok (NFlt (SFdiv 53 1024 x y))
  end.

(** [x % y] on floats (CPython float_rem): [fmod], then a remainder with the sign of [y] *)
Definition float_rem (x y : spec_float) : spec_float :=
  match x, y with
  | S754_nan, _ | _, S754_nan | S754_infinity _, _ => S754_nan
  | _, _ =>
      let m := match y with
               | S754_infinity _ => x
               | _ =>
                   (* the exact fmod: x - y * trunc (x/y) *)
                   let q := Z.quot (sf_num x * sf_den y) (sf_num y * sf_den x) in
                   round64_signed (sf_num x * sf_den y - q * sf_num y * sf_den x)
                                  (sf_den x * sf_den y)
               end in
      if sf_is_zero m then S754_zero (sf_sign y)
      else if xorb (sf_sign y) (sf_sign m) then SFadd 53 1024 m y else m
  end.

(** [a % b] *)
Definition n_mod (a b : num) : result num :=
  match a, b with
  | NInt x, NInt y => if y =? 0 then Err ZeroDivisionError else Ok (NInt (x mod y))
  | NEndf _ _, _ | _, NEndf _ _ => Err TypeError
  | _, _ =>
      do x <- as_float a; do y <- as_float b;
      if sf_is_zero y then Err ZeroDivisionError else Ok (NFlt (float_rem x y))
  end.

(** comparison of two numbers by exact value, [None] if one is nan. Simplification: an
    EndfFloat compares with an int after rounding the int to a float; here exactly
    (a difference only for ints beyond 2^53). *)
Definition sf_of (v : num) : spec_float := match v with NInt _ => S754_zero false | NFlt f | NEndf f _ => f end.
Definition num_cmp (a b : num) : option comparison :=
  match sf_of a, sf_of b with
  | S754_nan, _ | _, S754_nan => None
  | S754_infinity s, S754_infinity t =>
      Some (match s, t with true, false => Lt | false, true => Gt | _, _ => Eq end)
  | S754_infinity s, _ => Some (if s then Lt else Gt)
  | _, S754_infinity t => Some (if t then Gt else Lt)
  | _, _ => Some (num_num a * num_den b ?= num_num b * num_den a)
  end.
Definition num_eqb (a b : num) : bool :=
  match num_cmp a b with Some Eq => true | _ => false end.
Definition num_leb (a b : num) : bool :=
  match num_cmp a b with Some (Eq | Lt) => true | _ => false end.
Definition num_ltb (a b : num) : bool :=
  match num_cmp a b with Some Lt => true | _ => false end.

(** [abs(a)] of an int or float *)
Definition n_abs (a : num) : num :=
  match a with
  | NInt x => NInt (Z.abs x)
  | NFlt f => NFlt (sf_abs f)
  | NEndf f s => NEndf f s
  end.

(** the tolerances of endf_mapping_core.py 145 *)
Definition lit_1em7 : spec_float := round64 false 1 (10 ^ 7).
Definition lit_1em5 : spec_float := round64 false 1 (10 ^ 5).

(** math_utils.py 95-121 with rtol=1e-5, atol=1e-7 *)
Definition plain (a : num) : num := match a with NEndf f _ => NFlt f | _ => a end.
Definition math_isclose (a b : num) : result bool :=
  let x := plain a in
  let y := plain b in
  do d <- n_sub x y;
  do r <- n_mul (NFlt lit_1em5) (n_abs y);
  do t <- n_add (NFlt lit_1em7) r;
  Ok (num_leb (n_abs d) t).

(** [int(f)] of a finite float, and whether [int(f) == f] *)
Definition sf_integral (f : spec_float) : bool :=
  (Z.quot (sf_num f) (sf_den f)) * sf_den f =? sf_num f.

(** math_utils.py 200-230 on numbers *)
Definition num_div (cast_int : bool) (a b : num) : result num :=
  do r <- n_div a b;
  match a, b, r with
  | NInt _, NInt _, NFlt f =>
      if sf_integral f then Ok (NInt (Z.quot (sf_num f) (sf_den f)))
      else if cast_int then Err InvalidIntegerError else Ok r
  | _, _, _ => Ok r
  end.

(** math_utils.py 233-262 on numbers; for two ints the result is an int anyway *)
Definition num_mod (a b : num) : result num := n_mod a b.
