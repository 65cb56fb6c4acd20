(** Model of the tables, of the numbers with their text and of the checks of the C++ templates
    (compiler/cpp_templates/module_header_reading.hpp, module_header_writing.hpp,
    endf_float_cpp.hpp) that ModelCpp.v leaves out. *)
From Coq Require Import Ascii String ZArith Bool Lia List.
From Coq Require Import Floats.SpecFloat.
From Verif Require Import PyBase PyFloat ModelFortran ModelRecords ModelTape ModelNum ModelRecipe ModelCpp.
Import ListNotations.
Open Scope Z_scope.

(** ** Numbers that know their text *)

(** class EndfFloatCpp, endf_float_cpp.hpp 20-60: the value and the original text, which is
    empty if there is none *)
Record endf_float_cpp : Type := { ef_value : spec_float; ef_orig : str }.

(** module_header_reading.hpp 274-286 *)
Definition cpp_read_endf_field (accept preserve : bool) (line : str) (i : nat) : cpp endf_float_cpp :=
  let* f := cpp_read_float_field accept line i in
  Val {| ef_value := f; ef_orig := if preserve then cfield line i else [] |}.

(** module_header_writing.hpp 309-323 *)
Definition cpp_endf_text (o : cwopts) (preserve : bool) (v : endf_float_cpp) : cpp str :=
  match ef_orig v with
  | [] => float2endfstr o (ef_value v)
  | orig => if preserve then Val orig else float2endfstr o (ef_value v)
  end.
Definition cpp_write_endf_field (o : cwopts) (preserve : bool) (line : str) (i : nat) (v : endf_float_cpp) : cpp str :=
  let* t := cpp_endf_text o preserve v in
  if Nat.eqb (length t) 11 then Val (c_replace line (i * 11) 11 t) else Throw.

(** ** Lines with checked control numbers *)

(** module_header_reading.hpp 415-432. Simplification: at the end of the input [std::getline]
    gives an empty line; its fields lie behind the end of the text, which is not defined. *)
Definition cpp_read_line (validate : bool) (c : ctrl) (lines : list str) : cpp (str * list str) :=
  match lines with
  | [] => Undefined
  | l :: r =>
      if validate then
        let* curmat := cpp_read_mat_number l in
        let* curmf := cpp_read_mf_number l in
        let* curmt := cpp_read_mt_number l in
        if (curmat =? MAT c) && (curmf =? MF c) && (curmt =? MT c) then Val (l, r) else Throw
      else Val (l, r)
  end.

(** 505-520 with the check of the control numbers (ModelCpp.v has it without) *)
Fixpoint cpp_vec_loop {A} (validate : bool) (c : ctrl) (rd : str -> nat -> cpp A) (numel : nat) (line : str) (j : nat)
  (lines : list str) : cpp (list A * list str) :=
  match numel with
  | O => Val ([], lines)
  | S n =>
      let* v := rd line j in
      let* (line', j', lines') := (if (5 <? S j)%nat && (0 <? n)%nat
                                   then let* (l, r) := cpp_read_line validate c lines in Val (l, 0%nat, r)
                                   else Val (line, S j, lines)) in
      let* (vs, rest) := cpp_vec_loop validate c rd n line' j' lines' in Val (v :: vs, rest)
  end.
Definition cpp_vec {A} (validate : bool) (c : ctrl) (rd : str -> nat -> cpp A) (numel : nat) (lines : list str)
  : cpp (list A * list str) :=
  let* (l, r) := cpp_read_line validate c lines in cpp_vec_loop validate c rd numel l 0 r.

(** ** Tables *)

(** 568-573, 612-615: [first.push_back(data[j++]); second.push_back(data[j++])], [n] times;
    an index behind the end of the vector is not defined *)
Fixpoint split_pairs {A} (n : nat) (data : list A) : cpp (list A * list A) :=
  match n with
  | O => Val ([], [])
  | S m => match data with
           | x :: y :: r => let* (xs, ys) := split_pairs m r in Val (x :: xs, y :: ys)
           | _ => Undefined
           end
  end.

(** 563-575: NBT, INT *)
Definition cpp_read_tab2_body (validate : bool) (c : ctrl) (nr : nat) (lines : list str)
  : cpp ((list Z * list Z) * list str) :=
  let* (interp, r) := cpp_vec validate c cpp_read_int_field (2 * nr) lines in
  let* t := split_pairs nr interp in
  Val (t, r).

(** 603-621: NBT, INT, X, Y *)
Definition cpp_read_tab1_body (accept preserve validate : bool) (c : ctrl) (nr np : nat) (lines : list str)
  : cpp ((list Z * list Z) * (list endf_float_cpp * list endf_float_cpp) * list str) :=
  let* (interp, r1) := cpp_vec validate c cpp_read_int_field (2 * nr) lines in
  let* t := split_pairs nr interp in
  let* (data, r2) := cpp_vec validate c (cpp_read_endf_field accept preserve) (2 * np) r1 in
  let* u := split_pairs np data in
  Val (t, u, r2).

Section Pairs.
  Context {A : Type}.
  Variable wr : str -> nat -> A -> cpp str.   (* cpp_write_field *)
  Variable prep : Z -> str * Z.               (* cpp_prepare_line *)

  (** module_header_writing.hpp 366-375, 380-389, 402-411: the text of the lines and the next
      line number; [j] is the next field of the line [cur] *)
  Fixpoint write_pairs_loop (ps : list (A * A)) (cur : str) (j : nat) (n : Z) : cpp (str * Z) :=
    match ps with
    | [] => Val (cur, n)
    | (x, y) :: r =>
        let* l1 := wr cur j x in
        let* l2 := wr l1 (S j) y in
        if (5 <? S (S j))%nat && (0 <? length r)%nat then
          let '(l3, n') := prep n in
          let* (t, n'') := write_pairs_loop r l3 0 n' in Val (l2 ++ t, n'')
        else write_pairs_loop r l2 (S (S j)) n
    end.
  (** with the line that is prepared in front of the loop; vectors of different lengths end
      the program (357-359) *)
  Definition write_pairs (xs ys : list A) (n : Z) : cpp (str * Z) :=
    if Nat.eqb (length xs) (length ys) then
      let '(l, n') := prep n in write_pairs_loop (combine xs ys) l 0 n'
    else Undefined.
End Pairs.

(** module_header_writing.hpp 395-413 *)
Definition cpp_write_tab2_body (o : cwopts) (c : ctrl) (nbt int : list Z) (n : Z) : cpp (str * Z) :=
  write_pairs (fun l i v => Val (cpp_write_int_field l i v)) (fun k => cpp_prepare_line (MAT c) (MF c) (MT c) k o) nbt int n.
(** 357-392. Simplification: the lengths of X and Y are compared after NBT and INT have been
    written; a failing assertion ends the program in any case. *)
Definition cpp_write_tab1_body (o : cwopts) (preserve : bool) (c : ctrl) (nbt int : list Z) (xs ys : list endf_float_cpp) (n : Z)
  : cpp (str * Z) :=
  let* (t1, n1) := cpp_write_tab2_body o c nbt int n in
  let* (t2, n2) := write_pairs (cpp_write_endf_field o preserve) (fun k => cpp_prepare_line (MAT c) (MF c) (MT c) k o) xs ys n1 in
  Val (t1 ++ t2, n2).

(** ** Checks of fields *)

(** the options, module_header_reading.hpp 17-38 *)
Record cpopts : Type := { cp_zero : bool; cp_number : bool; cp_varspec : bool }.

(** compiler/expr_utils/node_trafos.py 344-349 (the functions for numbers and variables with a
    question mark, 352-368, are those of ModelRecipe.v) *)
Fixpoint contains_variable (e : expr) : bool :=
  match e with
  | EVar _ _ | EIncons _ _ => true
  | ENum _ _ => false
  | ENeg a => contains_variable a
  | EAdd a b | ESub a b | EMul a b | EDiv a b | EMod a b => contains_variable a || contains_variable b
  end.

(** [static_cast<double>] *)
Definition cpp_double (v : num) : spec_float := match v with NInt z => round64_signed z 1 | NFlt f | NEndf f _ => f end.
(** 303-314: scalars only *)
Definition is_zero_check (v : num) : bool :=
  match v with NInt z => z =? 0 | NFlt f => sf_zero f | NEndf _ _ => false end.

(** 346-376 for numbers; the doubles are compared by value ([num_eqb] of floats). The calls are
    generated by compiler/code_generator_parsing_core.py 70-105. Simplification: expressions
    without abbreviations. *)
Definition cpp_validate_field (o : cpopts) (e : expr) (expected actual : num) : cpp unit :=
  if num_eqb (NFlt (cpp_double expected)) (NFlt (cpp_double actual)) then Val tt
  else if negb (contains_variable e) then
    if is_zero_check expected && cp_zero o then Val tt
    else if has_desired e && cp_number o then Val tt
    else Throw
  else if has_incons e && cp_varspec o then Val tt
  else Throw.

(** 435-460 with the check of MAT and MF *)
Definition cpp_read_send_checked (accept validate : bool) (c : ctrl) (lines : list str) : cpp (list str) :=
  let* (line, r) := cpp_read_line validate {| MAT := MAT c; MF := MF c; MT := 0 |} lines in
  let* ok := cpp_read_send accept line in
  if ok then
    if validate then
      let* curmat := cpp_read_mat_number line in
      let* curmf := cpp_read_mf_number line in
      if (curmat =? MAT c) && (curmf =? MF c) then Val r else Throw
    else Val r
  else Throw.

(** 463-495: FEND, MEND, TEND. All fields are read before they are compared. *)
Definition cpp_is_fend_record (accept validate : bool) (mat : Z) (line : str) : cpp bool :=
  let* curmat := cpp_read_mat_number line in
  if negb (mat =? curmat) && validate then Throw else
  let* mf := cpp_read_mf_number line in
  let* mt := cpp_read_mt_number line in
  let* c1 := cpp_read_float_field accept line 0 in
  let* c2 := cpp_read_float_field accept line 1 in
  let* n1 := cpp_read_int_field line 2 in
  let* n2 := cpp_read_int_field line 3 in
  let* l1 := cpp_read_int_field line 4 in
  let* l2 := cpp_read_int_field line 5 in
  Val (sf_zero c1 && sf_zero c2 && (n1 =? 0) && (n2 =? 0) && (l1 =? 0) && (l2 =? 0) && (mf =? 0) && (mt =? 0)).
Definition cpp_is_mend_record (accept validate : bool) (line : str) : cpp bool :=
  let* mat := cpp_read_mat_number line in
  let* cond := cpp_is_fend_record accept validate 0 line in
  Val (cond && (mat =? 0)).
Definition cpp_is_tend_record (accept validate : bool) (line : str) : cpp bool :=
  let* mat := cpp_read_mat_number line in
  let* cond := cpp_is_fend_record accept validate (-1) line in
  Val (cond && (mat =? -1)).
