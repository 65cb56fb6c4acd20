(** What is assumed about the C library's [log10] and [pow], and a reference
    implementation that satisfies it (see ThmFloat.v). *)
From Coq Require Import ZArith QArith Qabs Bool Lia List.
From Coq Require Import Floats.SpecFloat.
From Verif Require Import PyBase PyFloat ModelFortran.
Open Scope Z_scope.

(** the double nearest to [10^k] *)
Definition pow10_double (neg : bool) (k : Z) : spec_float := round64 neg (dec_num 1 k) (dec_den k).

(** [libm_ok lm]: for every positive number [n/d],
    - [floor(log10(n/d))] is an exponent [e] with [10^e <= n/d < 10^(e+1)], except that
      numbers less than a relative 2^-42 below [10^e] may already give [e]
      (that far [log10], rounded to a double, may hit the integer [e]);
    - [log10] of the double nearest to [10^k] is [k];
    - [pow(10.0, e)] for [-308 <= e < 0] is a finite positive double with a relative
      error of at most 2^-50. *)
Record libm_ok (lm : libm) : Prop := {
  elog_ok : forall n d, 0 < n -> 0 < d ->
    let e := l_elog lm n d in
    (Qpower 10 e * (1 - Qpower 2 (-42)) <= inject_Z n / inject_Z d)%Q /\
    (inject_Z n / inject_Z d < Qpower 10 (e + 1))%Q;
  elog_pow10 : forall k, -307 <= k <= 308 ->
    let f := pow10_double false k in l_elog lm (sf_num f) (sf_den f) = k;
  pow10_ok : forall e, -308 <= e < 0 ->
    is_finite (l_pow10 lm e) = true /\
    (Qabs (sfQ (l_pow10 lm e) - Qpower 10 e) <= Qpower 10 e * Qpower 2 (-50))%Q
}.

(** exact floor of the decimal logarithm *)
Definition floor_log10 (n d : Z) : Z :=
  let k := Z.of_nat (ndigits n) - Z.of_nat (ndigits d) in
  if frac_leb (10 ^ Z.max 0 k) (10 ^ Z.max 0 (- k)) n d then k else k - 1.
(** ... corrected at the doubles nearest to a power of ten; correctly rounded power *)
Definition elog_ref (n d : Z) : Z :=
  let k := floor_log10 n d in
  let f := pow10_double false (k + 1) in
  if (-307 <=? k + 1) && (k + 1 <=? 308) && frac_eqb n d (sf_num f) (sf_den f) then k + 1 else k.
Definition libm_ref : libm :=
  {| l_elog := elog_ref; l_pow10 := fun e => round64 false 1 (10 ^ (- e)) |}.

(** the options EndfParser uses by default (endf_parser.py 304-322) *)
Definition default_wo : wopts :=
  {| w_abuse := false; w_skip := false; w_noexp := false; w_keepE := false;
     w_linenum := true; w_width := 11; w_strict := false; w_libm := libm_ref |}.
Definition default_ro : ropts :=
  {| r_spaces := true; r_blank := false; r_send := false; r_tpid := false;
     r_width := 11; r_preserve := false |}.

(** ** Numbers to be written *)

(** the exact value of a number *)
Definition num_value (v : num) : Q :=
  match v with NInt z => inject_Z z | NFlt f | NEndf f _ => sfQ f end.

(** a Python int or a finite float *)
Definition number (v : num) : Prop :=
  match v with NInt _ => True | NFlt f => is_finite f = true /\ valid64 f | NEndf _ _ => False end.

(** zero, or of a magnitude in [lo, hi] *)
Definition within (lo hi : Q) (v : num) : Prop :=
  (num_value v == 0)%Q \/ ((lo <= Qabs (num_value v))%Q /\ (Qabs (num_value v) <= hi)%Q).

(** zero or a normal double *)
Definition normal (v : num) : Prop :=
  (num_value v == 0)%Q \/ ((Qpower 2 (-1022) <= Qabs (num_value v))%Q /\ (Qabs (num_value v) < Qpower 2 1024)%Q).

(** the supported field widths *)
Definition field_width (wo : wopts) : Prop := (9 <= w_width wo <= 15)%nat.

(** just below 1e-9 or 1e-99, where [log10] may round up to -9 or -99 *)
Definition just_below_limit (v : num) : Prop :=
  exists k, (k = -9 \/ k = -99) /\
    (Qpower 10 k * (1 - Qpower 2 (-42)) <= Qabs (num_value v))%Q /\
    (Qabs (num_value v) < sfQ (pow10_double false k))%Q.

(** a [log10] that rounds up to the next integer within a relative distance of 2^-52,
    as the rounding of the C library's result does *)
Definition elog_close (n d : Z) : Z :=
  let k := floor_log10 n d in
  if (2 ^ 52 - 1) * (10 ^ Z.max 0 (k + 1) * d) <=? 2 ^ 52 * (n * 10 ^ Z.max 0 (- (k + 1))) then k + 1 else k.
Definition libm_close : libm :=
  {| l_elog := elog_close; l_pow10 := fun e => round64 false 1 (10 ^ (- e)) |}.

(** the same options without [prefer_noexp] *)
Definition without_noexp (wo : wopts) : wopts :=
  {| w_abuse := w_abuse wo; w_skip := w_skip wo; w_noexp := false; w_keepE := w_keepE wo;
     w_linenum := w_linenum wo; w_width := w_width wo; w_strict := w_strict wo; w_libm := w_libm wo |}.

(** integers that are exact as doubles *)
Definition exact_int (v : num) : Prop := match v with NInt z => Z.abs z <= 2 ^ 53 | _ => True end.

(** the default options on a C library with [libm_close]'s logarithm *)
Definition close_wo : wopts :=
  {| w_abuse := false; w_skip := false; w_noexp := false; w_keepE := false;
     w_linenum := true; w_width := 11; w_strict := false; w_libm := libm_close |}.
(** the option prefer_noexp *)
Definition noexp_wo : wopts :=
  {| w_abuse := false; w_skip := false; w_noexp := true; w_keepE := false;
     w_linenum := true; w_width := 11; w_strict := false; w_libm := libm_ref |}.
Definition preserving_ro : ropts :=
  {| r_spaces := true; r_blank := false; r_send := false; r_tpid := false;
     r_width := 11; r_preserve := true |}.
(** the double closest to 1/3, the smallest positive double, the double before 1e-9 *)
Definition a_third : num := NFlt (round64 false 1 3).
Definition smallest : num := NFlt (S754_finite false 1 (-1074)).
Definition before_1em9 : num := NFlt (S754_finite false 4835703278458516 (-82)).
