(** Model of interpreter/fortran_utils.py (all of it) and of the class EndfFloat
    (utils/math_utils.py 15-92) as far as reading and writing fields is concerned. *)
From Coq Require Import Ascii String ZArith QArith Bool Lia List.
From Coq Require Import Floats.SpecFloat.
From Verif Require Import PyBase PyFloat.
Import ListNotations.
Open Scope Z_scope.

(** A Python number as it occurs in a field: int, float or EndfFloat
    (utils/math_utils.py 15-46: value and original string). *)
Inductive num : Type :=
| NInt (z : Z)
| NFlt (f : spec_float)
| NEndf (f : spec_float) (orig : str).

(** Exact value as a fraction; for the infinities and nan see [num_finite]. *)
Definition num_num (v : num) : Z :=
  match v with NInt z => z | NFlt f | NEndf f _ => sf_num f end.
Definition num_den (v : num) : Z :=
  match v with NInt _ => 1 | NFlt f | NEndf f _ => sf_den f end.
Definition num_finite (v : num) : bool :=
  match v with NInt _ => true | NFlt f | NEndf f _ => is_finite f end.

(** The libm functions the code calls: [floor(log10(n/d))] for [n/d > 0]
    (fortran_utils.py 131) and [10**e] for a negative integer [e]
    (fortran_utils.py 132, CPython evaluates it as [pow(10.0, e)]). *)
Record libm : Type := { l_elog : Z -> Z -> Z; l_pow10 : Z -> spec_float }.

(** Writing options, interpreter/endf_parser.py 304-314 ([preserve_value_strings]
    is not consulted when writing; [check_arrays] is modelled elsewhere). *)
Record wopts : Type := {
  w_abuse : bool;      (* abuse_signpos *)
  w_skip : bool;       (* skip_intzero *)
  w_noexp : bool;      (* prefer_noexp *)
  w_keepE : bool;      (* keep_E *)
  w_linenum : bool;    (* include_linenum *)
  w_width : nat;       (* width *)
  w_strict : bool;     (* strict_datatypes *)
  w_libm : libm
}.

(** Reading options, interpreter/endf_parser.py 315-322. *)
Record ropts : Type := {
  r_spaces : bool;     (* accept_spaces *)
  r_blank : bool;      (* ignore_blank_lines *)
  r_send : bool;       (* ignore_send_records *)
  r_tpid : bool;       (* ignore_missing_tpid *)
  r_width : nat;       (* width *)
  r_preserve : bool    (* preserve_value_strings *)
}.

(** fortran_utils.py 18-25 *)
Definition read_fort_int (valstr : str) : result Z :=
  if is_blank valstr then Ok 0
  else match int_of_str valstr with
       | Some v => Ok v
       | None => Err InvalidIntegerError
       end.

(** fortran_utils.py 65-68: the loop enumerates the string as it was at its
    start ([rest] from index [i]) while [cur] is being rebound *)
Fixpoint insert_E_loop (rest : str) (i : nat) (cur : str) : str :=
  match rest with
  | [] => cur
  | c :: rest' =>
      let cur' :=
        if (0 <? i)%nat && (chr_eqb c "+"%char || chr_eqb c "-"%char) then
          match nth_error cur (i - 1) with
          | Some d => if is_digit d then firstn i cur ++ "E"%char :: skipn i cur else cur
          | None => cur
          end
        else cur in
      insert_E_loop rest' (S i) cur'
  end.
Definition insert_E (s : str) : str := insert_E_loop s 0 s.

(** fortran_utils.py 28-75; [width = None] models a missing option *)
Definition fortstr2float (spaces preserve : bool) (width : option nat) (valstr0 : str)
  : result num :=
  let valstr := match width with Some w => firstn w valstr0 | None => valstr0 end in
  if is_blank valstr then Ok (NFlt (S754_zero false)) else
  let valstr := if spaces then remove_chr " "%char valstr else valstr in
  let valstr := insert_E valstr in
  match float_of_str valstr with
  | Some f => Ok (if preserve then NEndf f valstr0 else NFlt f)
  | None => Err InvalidFloatError
  end.

(** the call used by the record readers *)
Definition read_fort_float (ro : ropts) (s : str) : result num :=
  fortstr2float (r_spaces ro) (r_preserve ro) (Some (r_width ro)) s.

(** [format(val, ".pf")] of a finite number with sign; the sign of a negative
    number is kept even if all digits are zero *)
Definition format_num_f (p : nat) (v : num) : str :=
  if num_num v <? 0 then "-"%char :: format_f p (- num_num v) (num_den v)
  else format_f p (num_num v) (num_den v).

(** [int(val)]: truncation towards zero *)
Definition num_trunc (v : num) : Z := Z.quot (num_num v) (num_den v).

Fixpoint index_chr (c0 : ascii) (s : str) : nat :=
  match s with
  | [] => 0%nat
  | c :: r => if chr_eqb c c0 then 0%nat else S (index_chr c0 r)
  end.

(** fortran_utils.py 78-112, for finite [val] that is not an EndfFloat *)
Definition float2basicnumstr (wo : wopts) (val : num) : str :=
  let width := w_width wo in
  let intpart := num_trunc val in
  let len_intpart := Z.of_nat (ndigits (Z.abs intpart)) in
  let is_integer := num_num val =? intpart * num_den val in
  if is_integer && (intpart =? 0) then rjust width $"0" else
  let waste_space := 2 in
  let waste_space := if w_abuse wo && (0 <? num_num val) then waste_space - 1 else waste_space in
  let should_skip_zero := w_skip wo && (intpart =? 0) in
  let effwidth := if should_skip_zero then S width else width in
  let waste_space := if is_integer then waste_space - 1 else waste_space in
  let floatwidth := Z.of_nat effwidth - waste_space - len_intpart in
  let numstr :=
    if (0 <? floatwidth) && negb is_integer then
      let numstr := rjust effwidth (format_num_f (Z.to_nat floatwidth) val) in
      if should_skip_zero then
        let dotpos := index_chr "."%char numstr in
        firstn (dotpos - 1) numstr ++ skipn dotpos numstr
      else numstr
    else
      let numstr := str_of_Z intpart in
      let numstr := if (0 <? num_num val) && negb (w_abuse wo)
                    then " "%char :: numstr else numstr in
      if Z.of_nat (length numstr) <=? Z.of_nat width - 2
      then ljust_with width "0"%char (numstr ++ $".")
      else numstr in
  rjust width numstr.

(** the double literals of fortran_utils.py 120-122 *)
Definition lit_1em9 : spec_float := round64 false 1 (10 ^ 9).
Definition lit_1e10 : spec_float := round64 false (10 ^ 10) 1.
Definition lit_1em99 : spec_float := round64 false 1 (10 ^ 99).
Definition lit_1e100 : spec_float := round64 false (10 ^ 100) 1.

(** [n/d < f] and [f <= n/d] for a finite double [f] *)
Definition frac_lt_sf (n d : Z) (f : spec_float) : bool := frac_ltb n d (sf_num f) (sf_den f).
Definition sf_le_frac (f : spec_float) (n d : Z) : bool := frac_leb (sf_num f) (sf_den f) n d.

(** fortran_utils.py 119-127, [n/d = abs(val)] *)
Definition exp_digits (n d : Z) : nat :=
  if sf_le_frac lit_1em9 n d && frac_lt_sf n d lit_1e10 then 1%nat
  else if sf_le_frac lit_1em99 n d && frac_lt_sf n d lit_1e100 then 2%nat
  else if n =? 0 then 1%nat else 3%nat.

(** [abs(val / 10**exponent)], fortran_utils.py 132. For an int [val] and
    [exponent >= 0] Python divides two ints (correctly rounded quotient), otherwise
    both operands are converted to float first. *)
Definition scaled_mantissa (lm : libm) (val : num) (exponent : Z) : result spec_float :=
  match val with
  | NInt z =>
      if 0 <=? exponent then Ok (round64 false (Z.abs z) (10 ^ exponent))
      else let x := round64 false (Z.abs z) 1 in
           let y := l_pow10 lm exponent in
           if sf_num y =? 0 then Err ZeroDivisionError
           else Ok (round64 false (sf_num x * sf_den y) (sf_den x * sf_num y))
  | NFlt f | NEndf f _ =>
      let y := if 0 <=? exponent then round64 false (10 ^ exponent) 1 else l_pow10 lm exponent in
      if sf_num y =? 0 then Err ZeroDivisionError
      else Ok (round64 false (Z.abs (sf_num f) * sf_den y) (sf_den f * sf_num y))
  end.

(** fortran_utils.py 115-151, for finite [val] that is not an EndfFloat.
    [fuel] bounds the recursion of line 150 (CPython: RecursionError). *)
Fixpoint float2expformstr_fuel (fuel : nat) (wo : wopts) (val : num) : result str :=
  let width := w_width wo in
  let n := Z.abs (num_num val) in
  let d := num_den val in
  let nexp := exp_digits n d in
  let is_pos := 0 <=? num_num val in
  let sign_dec := if w_abuse wo && is_pos then 0 else 1 in
  let expsymb_dec := if w_keepE wo then 1 else 0 in
  let exponent := if n =? 0 then 0 else l_elog (w_libm wo) n d in
  do mantissa <- scaled_mantissa (w_libm wo) val exponent;
  let mantissa_len := Z.of_nat width - 1 - Z.of_nat nexp - sign_dec - expsymb_dec in
  if mantissa_len <? 2 then Err ValueError else
  let mantissa_str := format_f (Z.to_nat (mantissa_len - 2)) (sf_num mantissa) (sf_den mantissa) in
  let expsymb_str := if w_keepE wo then $"E" else [] in
  let exposign_str := if 0 <=? exponent then $"+" else $"-" in
  let exponent_str := rjust nexp (str_of_Z (Z.abs exponent)) in
  let sign_str := if is_pos then (if w_abuse wo then [] else $" ") else $"-" in
  let res_str := sign_str ++ mantissa_str ++ expsymb_str ++ exposign_str ++ exponent_str in
  if (width <? length res_str)%nat then
    match fuel with
    | O => Err RecursionError
    | S fuel' =>
        let tmp_str := sign_str ++ mantissa_str ++ $"e" ++ exposign_str ++ exponent_str in
        match float_of_str tmp_str with
        | Some f => float2expformstr_fuel fuel' wo (NFlt f)
        | None => Err ValueError
        end
    end
  else Ok res_str.
Definition float2expformstr (wo : wopts) (val : num) : result str :=
  float2expformstr_fuel 20 wo val.

(** [abs(float(s) - val)], fortran_utils.py 203-204, as computed in binary64;
    the int [val] is converted to float first *)
Definition num_to_sf (v : num) : spec_float :=
  match v with NInt z => round64_signed z 1 | NFlt f | NEndf f _ => f end.
Definition float_dist (x y : spec_float) : spec_float :=
  round64 false (Z.abs (sf_num x * sf_den y - sf_num y * sf_den x)) (sf_den x * sf_den y).
Definition delta_of (s : str) (val : num) : result spec_float :=
  do x <- fortstr2float true false None s;
  Ok (float_dist (num_to_sf x) (num_to_sf val)).

Definition has_chr (c : ascii) (s : str) : bool := existsb (chr_eqb c) s.

(** fortran_utils.py 154-208. Infinite and nan values: Python raises OverflowError
    (floor(log10(inf))) respectively ValueError (floor(nan)). *)
Definition float2fortstr (wo : wopts) (val : num) : result str :=
  let width := w_width wo in
  match val with
  | NEndf _ orig => if Nat.eqb width (length orig) then Ok orig else Err InvalidFloatError
  | NFlt (S754_infinity _) => Err OverflowError
  | NFlt S754_nan => Err ValueError
  | _ =>
      do valstr_exp <- float2expformstr wo val;
      if negb (w_noexp wo) then Ok valstr_exp else
      let valstr_basic := float2basicnumstr wo val in
      let valstr_basic :=
        if has_chr "."%char valstr_basic then
          let t := rstrip_chr "."%char (rstrip_chr "0"%char valstr_basic) in
          if str_eqb t $"+" || str_eqb t $"-" || str_eqb t [] then $"0" else t
        else valstr_basic in
      if (width <? length valstr_basic)%nat then Ok valstr_exp else
      do delta1 <- delta_of valstr_basic val;
      do delta2 <- delta_of valstr_exp val;
      if frac_ltb (sf_num delta2) (sf_den delta2) (sf_num delta1) (sf_den delta1)
      then Ok valstr_exp
      else Ok (rjust width valstr_basic)
  end.

(** fortran_utils.py 211-240: [n] fields of one line *)
Definition read_fort_floats (ro : ropts) (line : str) (n : nat) : result (list num) :=
  let w := r_width ro in
  mapM (fun i => read_fort_float ro (slice (i * w) (i * w + w) line)) (seq 0 n).

(** fortran_utils.py 243-265 *)
Definition write_fort_floats (wo : wopts) (vals : list num) : result str :=
  do ss <- mapM (float2fortstr wo) vals; Ok (concat ss).
