(** Specification vocabulary for real numbers written as text. *)
From Coq Require Import Ascii String ZArith QArith Qabs Bool Lia List.
From Coq Require Import Floats.SpecFloat.
From Verif Require Import PyBase PyFloat SpecFields.
Import ListNotations.
Open Scope Z_scope.

Definition digit_string (s : str) : Prop := forall c, In c s -> is_digit c = true.

(** an exponent part denoting the integer [e]; [bare]: without the letter E *)
Inductive exponent_text : bool -> str -> Z -> Prop :=
| exp_none : exponent_text false [] 0
| exp_letter c sign ds :
    c = "E"%char \/ c = "e"%char ->
    sign = [] \/ sign = $"+" \/ sign = $"-" ->
    ds <> [] -> digit_string ds ->
    exponent_text false (c :: sign ++ ds)
      (if str_eqb sign $"-" then - digits_value ds else digits_value ds)
| exp_bare sign ds :
    sign = $"+" \/ sign = $"-" ->
    ds <> [] -> digit_string ds ->
    exponent_text true (sign ++ ds)
      (if str_eqb sign $"-" then - digits_value ds else digits_value ds).

(** Fortran notation without spaces: [t] denotes [(-1)^neg * m * 10^e]. A bare
    exponent has to follow a digit. *)
Definition fortran_text (t : str) (neg : bool) (m e : Z) : Prop :=
  exists sign ip point fp bare ex k,
    t = sign ++ ip ++ point ++ fp ++ ex /\
    (sign = [] /\ neg = false \/ sign = $"+" /\ neg = false \/ sign = $"-" /\ neg = true) /\
    digit_string ip /\ digit_string fp /\ ip ++ fp <> [] /\
    (point = [] /\ fp = [] \/ point = $"." /\ (bare = true -> fp <> [])) /\
    exponent_text bare ex k /\
    m = digits_value (ip ++ fp) /\ e = k - Z.of_nat (length fp).

(** the rational number [m * 10^e] *)
Definition decimalQ (m e : Z) : Q := (inject_Z m * Qpower 10 e)%Q.

(** [f] is a double nearest to [q]: no finite double is closer *)
Definition nearest_double (f : spec_float) (q : Q) : Prop :=
  is_finite f = true /\ valid64 f /\
  forall g, is_finite g = true -> valid64 g -> (Qabs (sfQ f - q) <= Qabs (sfQ g - q))%Q.

(** half way between the largest double and 2^1024: from here on overflow *)
Definition overflow_threshold : Q := (Qpower 2 1024 - Qpower 2 970)%Q.

(** [s] is [t] with spaces inserted at arbitrary places *)
Inductive spread : str -> str -> Prop :=
| spread_nil : spread [] []
| spread_space t s : spread t s -> spread t (" "%char :: s)
| spread_char c t s : spread t s -> spread (c :: t) (c :: s).

(** the field [s] contains the text [t]: with surrounding white space, respectively
    with spaces anywhere if these are accepted *)
Definition field_text (accept_spaces : bool) (t s : str) : Prop :=
  if accept_spaces then spread t s
  else exists w1 w2, s = w1 ++ t ++ w2 /\ blank w1 /\ blank w2.

(** white space between two other characters *)
Definition inner_blank (s : str) : Prop :=
  exists a c w d b, s = a ++ c :: w ++ d :: b /\ is_ws c = false /\ is_ws d = false /\
    exists x, In x w /\ is_ws x = true.
