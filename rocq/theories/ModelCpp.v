(** Model of the C++ templates in compiler/cpp_templates (module_header.hpp,
    module_header_reading.hpp, module_header_writing.hpp) and of the writing function of a file
    generated by compiler/code_generator_writing.py 335-488.

    A C++ [char] is an 8-bit character, [int] has 32 bits, [double] is binary64. The conversion
    of Python objects, the generated functions of the recipes and the reading of streams are
    not modelled. *)
From Coq Require Import Ascii String ZArith Bool Lia List.
From Coq Require Import Floats.SpecFloat.
From Verif Require Import PyBase PyFloat ModelFortran ModelRecords ModelTape.
Import ListNotations.
Open Scope Z_scope.

(** a value, an exception, or behaviour that the C++ standard does not define *)
Inductive cpp (A : Type) : Type := Val (a : A) | Throw | Undefined.
Arguments Val {A} a.
Arguments Throw {A}.
Arguments Undefined {A}.
Definition cbind {A B} (r : cpp A) (f : A -> cpp B) : cpp B :=
  match r with Val a => f a | Throw => Throw | Undefined => Undefined end.
Notation "'let*' x := r 'in' k" := (cbind r (fun x => k))
  (at level 200, x pattern, r at level 100, k at level 200, right associativity).

(** ** Selection, module_header.hpp 49-83 *)

(** [seq_contains(seq, int_(mf))] and [seq_contains(seq, make_tuple(mf, mt))] *)
Definition seq_contains_mf (l : list selitem) (mf : Z) : bool :=
  existsb (fun x => match x with SMf a => Z.eqb a mf | SMfMt _ _ => false end) l.
Definition seq_contains_pair (l : list selitem) (mf mt : Z) : bool :=
  existsb (fun x => match x with SMf _ => false | SMfMt a b => Z.eqb a mf && Z.eqb b mt end) l.
Definition should_parse_section (mf mt : Z) (exclude include : selection) : bool :=
  match exclude with
  | Some exc => if seq_contains_mf exc mf || seq_contains_pair exc mf mt then false else true
  | None => match include with
            | Some inc => if seq_contains_mf inc mf || seq_contains_pair inc mf mt then true else false
            | None => true
            end
  end.

(** ** Integers from text *)

(** [isspace] in the C locale *)
Definition c_isspace (c : ascii) : bool := (code c =? 32)%nat || ((9 <=? code c) && (code c <=? 13))%nat.
Fixpoint skip_space (s : str) : str :=
  match s with c :: r => if c_isspace c then skip_space r else s | [] => [] end.
Definition c_int (z : Z) : cpp Z := if (- 2 ^ 31 <=? z) && (z <? 2 ^ 31) then Val z else Undefined.
(** [atoi]: the longest prefix that is a number; 0 if there is none *)
Definition atoi (s : str) : cpp Z :=
  let '(neg, d) := take_sign (skip_space s) in
  let v := dval (fst (span_digits d)) in c_int (if neg then - v else v).

Definition all_spaces (s : str) : bool := forallb (fun c => chr_eqb c " "%char) s.
(** module_header_reading.hpp 261-271 on the eleven characters of a field *)
Definition endfstr2int (s : str) : cpp Z := if all_spaces s then Val 0 else atoi s.
(** 380-390; reading behind the end of the line is not defined *)
Definition cpp_read_custom_int_field (line : str) (start len : nat) : cpp Z :=
  if (length line <? start + len)%nat then Undefined else
  let s := slice start (start + len) line in
  if all_spaces s then Val 0 else atoi s.
(** 393-405 *)
Definition cpp_read_mat_number (line : str) : cpp Z := cpp_read_custom_int_field line 66 4.
Definition cpp_read_mf_number (line : str) : cpp Z := cpp_read_custom_int_field line 70 2.
Definition cpp_read_mt_number (line : str) : cpp Z := cpp_read_custom_int_field line 72 3.

(** ** Floats from text *)

(** [std::stod]: the longest prefix that is a decimal number; an exception if there is none, or
    if the number is too large or too small for a double. Simplifications: hexadecimal numbers,
    "inf" and "nan" are not recognised; every number below 2^-1022 except zero counts as too
    small (of the decimal numbers that fit into a field none is a double there). *)
Definition scan_exponent (s : str) : Z :=
  match s with
  | c :: r => if chr_eqb c "e"%char || chr_eqb c "E"%char
              then let '(neg, d) := take_sign r in
                   let v := dval (fst (span_digits d)) in if neg then - v else v
              else 0
  | [] => 0
  end.
Definition stod (s : str) : cpp spec_float :=
  let '(neg, u) := take_sign (skip_space s) in
  let '(ip, r1) := span_digits u in
  let '(fp, r2) := match r1 with
                   | c :: r => if chr_eqb c "."%char then span_digits r else ([], r1)
                   | [] => ([], [])
                   end in
  match ip ++ fp with
  | [] => Throw
  | ds =>
      let m := dval ds in
      let e := scan_exponent r2 - Z.of_nat (length fp) in
      let tiny := (0 <? m) && (dec_num m e * 2 ^ 1022 <? dec_den e) in
      match round64 neg (dec_num m e) (dec_den e) with
      | S754_infinity _ => Throw
      | f => if tiny then Throw else Val f
      end
  end.

(** module_header_reading.hpp 212-258, the second loop. [started], [inexp]: in_number,
    in_exponent; [None]: the exception of 233-238. *)
Fixpoint collect (accept started inexp : bool) (s : str) : option str :=
  match s with
  | [] => Some []
  | c :: r =>
      if chr_eqb c " "%char then
        if accept || negb started then collect accept started inexp r else None
      else
        let sign := chr_eqb c "+"%char || chr_eqb c "-"%char in
        if started then
          if inexp then option_map (cons c) (collect accept true true r)
          else if sign then option_map (fun t => "e"%char :: c :: t) (collect accept true true r)
          else option_map (cons c) (collect accept true (chr_eqb c "e"%char || chr_eqb c "E"%char) r)
        else option_map (cons c) (collect accept (chr_eqb c "."%char || is_digit c || sign) inexp r)
  end.
(** the same function on the eleven characters of a field; the first loop finds the last
    character that is not a space. Simplification: the buffer of thirteen characters is always
    long enough (eleven characters, an "e" and the final zero). *)
Definition endfstr2float (accept : bool) (s : str) : cpp spec_float :=
  match rstrip_chr " "%char s with
  | [] => Val (S754_zero false)
  | t => match collect accept false false t with
         | None => Throw
         | Some [] => stod $"0"
         | Some u => stod u
         end
  end.

(** 300-314 *)
Definition cfield (line : str) (i : nat) : str := slice (11 * i) (11 * i + 11) line.
Definition cpp_read_int_field (line : str) (i : nat) : cpp Z :=
  if (length line <? 11 * i + 11)%nat then Undefined else endfstr2int (cfield line i).
Definition cpp_read_float_field (accept : bool) (line : str) (i : nat) : cpp spec_float :=
  if (length line <? 11 * i + 11)%nat then Undefined else endfstr2float accept (cfield line i).

Definition sf_zero (f : spec_float) : bool := match f with S754_zero _ => true | _ => false end.
(** 435-460 without validate_control_records: whether the line is accepted as SEND record. The
    operator || evaluates from the left and stops at the first field that is not zero. *)
Definition if_zero (z : cpp Z) (k : cpp bool) : cpp bool :=
  let* v := z in if v =? 0 then k else Val false.
Definition if_fzero (z : cpp spec_float) (k : cpp bool) : cpp bool :=
  let* v := z in if sf_zero v then k else Val false.
Definition cpp_read_send (accept : bool) (line : str) : cpp bool :=
  let* mt := cpp_read_mt_number line in
  if_fzero (cpp_read_float_field accept line 0)
    (if_fzero (cpp_read_float_field accept line 1)
      (if_zero (cpp_read_int_field line 2)
        (if_zero (cpp_read_int_field line 3)
          (if_zero (cpp_read_int_field line 4)
            (if_zero (cpp_read_int_field line 5) (Val (mt =? 0))))))).

(** 505-520: [numel] numbers from the lines; [j] is the next field of the current line. The
    lines that are left are returned. *)
Fixpoint cpp_read_vec_loop {A} (rd : str -> nat -> cpp A) (numel : nat) (line : str) (j : nat) (lines : list str)
  : cpp (list A * list str) :=
  match numel with
  | O => Val ([], lines)
  | S n =>
      let* v := rd line j in
      let* (line', j', lines') := (if (5 <? S j)%nat && (0 <? n)%nat
                                   then match lines with l :: r => Val (l, 0%nat, r) | [] => Undefined end
                                   else Val (line, S j, lines)) in
      let* (vs, rest) := cpp_read_vec_loop rd n line' j' lines' in Val (v :: vs, rest)
  end.
Definition cpp_read_vec {A} (rd : str -> nat -> cpp A) (numel : nat) (lines : list str) : cpp (list A * list str) :=
  match lines with
  | [] => Undefined
  | l :: r => cpp_read_vec_loop rd numel l 0 r
  end.

(** ** Writing *)

(** the options, module_header_writing.hpp 17-25 *)
Record cwopts : Type := {
  cw_abuse : bool; cw_keepE : bool; cw_noexp : bool; cw_skip : bool; cw_linenum : bool
}.

(** [str.replace(pos, len, text)] *)
Definition c_replace (s : str) (pos len : nat) (t : str) : str := firstn pos s ++ t ++ skipn (pos + len) s.
(** 115-119: [std::right << std::setw(length) << value] *)
Definition cpp_write_custom_int_field (s : str) (start len : nat) (v : Z) : str :=
  c_replace s start len (rjust len (str_of_Z v)).
(** 122-139 *)
Definition cpp_write_mat_number s v := cpp_write_custom_int_field s 66 4 v.
Definition cpp_write_mf_number s v := cpp_write_custom_int_field s 70 2 v.
Definition cpp_write_mt_number s v := cpp_write_custom_int_field s 72 3 v.
Definition cpp_write_line_number s v := cpp_write_custom_int_field s 75 5 v.

Definition newline : ascii := ascii_of_nat 10.
Definition blank_line (o : cwopts) : str := spaces (if cw_linenum o then 80 else 75) ++ [newline].
(** 142-157; the remainder is that of C++, which has the sign of the dividend *)
Definition cpp_prepare_line (mat mf mt linenum : Z) (o : cwopts) : str * Z :=
  let line := cpp_write_mt_number (cpp_write_mf_number (cpp_write_mat_number (blank_line o) mat) mf) mt in
  (if cw_linenum o then cpp_write_line_number line (Z.rem linenum 99999 + 1) else line, linenum + 1).

(** *** Floats *)

(** the exponent [e] with 10^e <= n/d < 10^(e+1), for n, d > 0 *)
Definition sci_exponent (n d : Z) : Z :=
  let e := Z.of_nat (ndigits n) - Z.of_nat (ndigits d) in
  if frac_leb (dec_num 1 e) (dec_den e) n d then e else e - 1.
(** [std::scientific << std::setprecision(p)] of n/d >= 0: the digits and the exponent *)
Definition sci_digits (p : nat) (n d : Z) : Z * Z :=
  if n =? 0 then (0, 0) else
  let e := sci_exponent n d in
  let k := Z.of_nat p - e in
  let m := rhe (n * 10 ^ Z.max 0 k) (d * 10 ^ Z.max 0 (- k)) in
  if m <? 10 ^ (Z.of_nat p + 1) then (m, e) else (m / 10, e + 1).
Definition exp_text (e : Z) : str :=
  (if e <? 0 then "-"%char else "+"%char) ::
  (if Z.abs e <? 10 then "0"%char :: str_of_nonneg (Z.abs e) else str_of_nonneg (Z.abs e)).
Definition format_sci (p : nat) (f : spec_float) : str :=
  let '(m, e) := sci_digits p (Z.abs (sf_num f)) (sf_den f) in
  (if sf_sign f then $"-" else []) ++ fixed_digits p m ++ "e"%char :: exp_text e.
(** [std::fixed << std::setprecision(p)] *)
Definition format_fixed (p : nat) (f : spec_float) : str :=
  (if sf_sign f then $"-" else []) ++ format_f p (Z.abs (sf_num f)) (sf_den f).

(** 160-183: the zeros at the start of the exponent are removed; [s]: the text behind the "e" *)
Fixpoint strip_exponent (s : str) (pre zeros : str) : str :=
  match s with
  | [] => rev pre ++ rev zeros
  | [c] => rev pre ++ [c]
  | c :: r =>
      if is_digit c && negb (chr_eqb c "0"%char) then
        match zeros with [] => strip_exponent r (c :: pre) [] | _ => rev pre ++ s end
      else if chr_eqb c "0"%char then strip_exponent r pre (c :: zeros)
      else strip_exponent r (c :: pre) zeros
  end.
Fixpoint find_chr (c0 : ascii) (s : str) : option nat :=
  match s with
  | [] => None
  | c :: r => if chr_eqb c c0 then Some 0%nat else option_map S (find_chr c0 r)
  end.
Definition float2endfstr_helper (p : nat) (f : spec_float) : str * nat :=
  let s := format_sci p f in
  let pos := index_chr "e"%char s in
  (firstn (S pos) s ++ strip_exponent (skipn (S pos) s) [] [], pos).

(** [value >= 0] *)
Definition sf_nonneg (f : spec_float) : bool := 0 <=? sf_num f.
(** 186-207 *)
Definition float2endfstr_decimal_helper (width : nat) (f : spec_float) : str :=
  let s := format_fixed 16 f in
  let pos := index_chr "."%char s in
  if (width <=? pos)%nat then s
  else format_fixed (width - pos - (if sf_nonneg f then 1 else 0)) f.

Definition sub64 (x y : spec_float) : spec_float := SFsub 53 1024 x y.
Definition lit_1em12 : spec_float := round64 false 1 (10 ^ 12).
(** 242-245: the relative difference of a text from the value *)
Definition recon_diff (s : str) (f : spec_float) : cpp spec_float :=
  let* g := stod s in
  Val (SFdiv 53 1024 (sf_abs (sub64 g f)) (SFadd 53 1024 (sf_abs f) lit_1em12)).
Definition erase (s : str) (pos : nat) : str := firstn pos s ++ skipn (S pos) s.

(** 210-269 for a finite double. [static_cast<int>] of a number behind 2^31 is not defined. *)
Definition float2endfstr (o : cwopts) (f : spec_float) : cpp str :=
  let pos := sf_nonneg f in
  let after := ((if cw_keepE o then 5 else 6) + (if pos && cw_abuse o then 1 else 0))%nat in
  let number_length := if pos && cw_abuse o then 11%nat else 10%nat in
  let '(numstr, exp_pos) := float2endfstr_helper after f in
  let prec_red := Z.of_nat (length numstr) - Z.of_nat number_length - (if cw_keepE o then 0 else 1)
                  - (if sf_num f <? 0 then 1 else 0) in
  let '(numstr, exp_pos) := if 0 <? prec_red then float2endfstr_helper (after - Z.to_nat prec_red) f
                            else (numstr, exp_pos) in
  let short := if cw_keepE o then numstr else erase numstr exp_pos in
  let* text :=
    (if cw_noexp o then
       let noexp := float2endfstr_decimal_helper number_length f in
       if (length noexp <=? number_length + (if (sf_num f <? 0)%Z then 1 else 0))%nat then
         let* d1 := recon_diff numstr f in
         let* d2 := recon_diff noexp f in
         if SFleb d2 d1 then
           let* v := stod noexp in
           let* skip := (if cw_skip o
                         then let* z := c_int (Z.quot (sf_num v) (sf_den v)) in Val (z =? 0)
                         else Val false) in
           if skip then
             let t := float2endfstr_decimal_helper (S number_length) f in
             match find_chr "0"%char t, find_chr "."%char t with
             | Some zp, Some cp => if Nat.eqb (S zp) cp then Val (erase t zp) else Throw
             | _, _ => Throw
             end
           else Val noexp
         else Val short
       else Val short
     else Val short) in
  Val (rjust 11 text).

(** 288-330: a field of the line; the size check is made for floats only *)
Definition cpp_write_float_field (o : cwopts) (line : str) (i : nat) (f : spec_float) : cpp str :=
  let* t := float2endfstr o f in
  if Nat.eqb (length t) 11 then Val (c_replace line (i * 11) 11 t) else Throw.
Definition cpp_write_int_field (line : str) (i : nat) (v : Z) : str :=
  c_replace line (i * 11) 11 (rjust 11 (str_of_Z v)).

(** 413-438 *)
Definition cpp_prepare_send (mat mf : Z) (o : cwopts) : cpp str :=
  let line := cpp_write_mt_number (cpp_write_mf_number (cpp_write_mat_number (blank_line o) mat) mf) 0 in
  let* line := cpp_write_float_field o line 0 (S754_zero false) in
  let* line := cpp_write_float_field o line 1 (S754_zero false) in
  let line := cpp_write_int_field line 2 0 in
  let line := cpp_write_int_field line 3 0 in
  let line := cpp_write_int_field line 4 0 in
  let line := cpp_write_int_field line 5 0 in
  Val (if cw_linenum o then cpp_write_line_number line (if mf =? 0 then 0 else 99999) else line).

(** 464-492. [resize(80)] fills up with zero characters; [erase(75)] raises an exception if
    the line is shorter. *)
Definition zero_chr : ascii := ascii_of_nat 0.
Definition resize (n : nat) (s : str) : str := firstn n s ++ repeat zero_chr (n - length s).
Definition ends_with_newline (s : str) : bool := chr_eqb (last s zero_chr) newline.
Definition verbatim_line (o : cwopts) (linenum : Z) (l : str) : cpp str :=
  let* t := (if cw_linenum o then Val (cpp_write_line_number (resize 80 l) linenum)
             else if (length l <? 75)%nat then Throw else Val (firstn 75 l)) in
  Val (if ends_with_newline t then t else t ++ [newline]).
Fixpoint verbatim_lines (o : cwopts) (linenum : Z) (ls : list str) : cpp str :=
  match ls with
  | [] => Val []
  | l :: r => let* t := verbatim_line o linenum l in
              let* u := verbatim_lines o (linenum + 1) r in Val (t ++ u)
  end.
Definition write_section_verbatim (o : cwopts) (ls : list str) : cpp str :=
  match ls with
  | [] => Throw
  | l0 :: _ =>
      let* mat := cpp_read_mat_number l0 in
      let* mf := cpp_read_mf_number l0 in
      let* mt := cpp_read_mt_number l0 in
      let* body := verbatim_lines o (if mf =? 0 then 0 else 1) ls in
      if mf =? 0 then Val body
      else let* send := cpp_prepare_send mat mf o in Val (body ++ send)
  end.

(** ** The file, code_generator_writing.py 335-488 *)
Section Master.
  Context {D : Type}.
  (** the generated function of a recipe (its text with the SEND record), the number
      [d["MAT"]] of a section, and whether there is a function for MF/MT *)
  Variable run_cpp : Z -> Z -> D -> cpp str.
  Variable mat_of : D -> Z.
  Variable registered : Z -> Z -> bool.
  Variable o : cwopts.
  Variable exclude include : selection.

  (** [std::stoi] of the columns, module_header_writing.hpp 441-461: like [atoi], but an
      exception if there is no number *)
  Definition stoi (s : str) : cpp Z :=
    match fst (span_digits (snd (take_sign (skip_space s)))) with [] => Throw | _ => atoi s end.
  Definition get_mat_from_mfmt_section (s : section D) : cpp Z :=
    match s with
    | Parsed d => Val (mat_of d)
    | Raw [] => Throw
    | Raw (l :: _) => if (length l <? 66)%nat then Throw else stoi (slice 66 70 l)
    end.

  (** the variables [mat] (None before its first assignment), [section_encountered] and
      [last_mf] *)
  Record mstate : Type := { ms_mat : option Z; ms_seen : bool; ms_last : Z }.

  (** one MF/MT section (388-471) *)
  Definition master_step (st : mstate) (mf mt : Z) (s : section D) : cpp (str * mstate) :=
    let* fend :=
      (if ms_seen st && negb (mf =? ms_last st) && negb (mf =? 0) && negb (ms_last st =? 0)
       then match ms_mat st with Some mat => cpp_prepare_send mat 0 o | None => Undefined end
       else Val []) in
    if registered mf mt then
      let* body := match s with Parsed d => run_cpp mf mt d | Raw ls => write_section_verbatim o ls end in
      let* mat := get_mat_from_mfmt_section s in
      Val (fend ++ body, {| ms_mat := Some mat; ms_seen := true; ms_last := mf |})
    else
      let* body := match s with Raw ls => write_section_verbatim o ls | Parsed _ => Throw end in
      Val (fend ++ body, {| ms_mat := ms_mat st; ms_seen := ms_seen st; ms_last := mf |}).
  Fixpoint master_mts (st : mstate) (mf : Z) (mts : list (Z * section D)) : cpp (str * mstate) :=
    match mts with
    | [] => Val ([], st)
    | (mt, s) :: r =>
        if negb (should_parse_section mf mt exclude include) then master_mts st mf r
        else let* (t, st1) := master_step st mf mt s in
             let* (u, st2) := master_mts st1 mf r in Val (t ++ u, st2)
    end.
  Fixpoint master_mfs (st : mstate) (mfs : list (Z * list (Z * section D))) : cpp (str * mstate) :=
    match mfs with
    | [] => Val ([], st)
    | (mf, mts) :: r =>
        let* (t, st1) := master_mts st mf (zsort mts) in
        let* (u, st2) := master_mfs st1 r in Val (t ++ u, st2)
    end.
  Definition master_write (d : mfdic (section D)) : cpp str :=
    let* (t, st) := master_mfs {| ms_mat := None; ms_seen := false; ms_last := -9999 |} (zsort d) in
    match ms_mat st with
    | None => Undefined
    | Some mat =>
        let* fend := cpp_prepare_send mat 0 o in
        let* mend := cpp_prepare_send 0 0 o in
        let* tend := cpp_prepare_send (-1) 0 o in
        Val (t ++ fend ++ mend ++ tend)
    end.
End Master.
