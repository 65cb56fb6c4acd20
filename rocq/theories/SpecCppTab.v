(** Specification vocabulary for the tables of the C++ templates. *)
From Coq Require Import Ascii String ZArith Bool List.
From Coq Require Import Floats.SpecFloat.
From Verif Require Import PyBase PyFloat ModelFortran ModelRecords ModelTape SpecFields SpecFloat ModelInterp ModelCpp ModelCppTab SpecCpp.
Import ListNotations.
Open Scope Z_scope.

(** the number [v] that Python reads and the number [e] that C++ reads: the same double, and
    the text that Python keeps is the text that C++ keeps (of a blank field Python keeps nothing) *)
Definition same_number (v : num) (e : endf_float_cpp) : Prop :=
  match v with
  | NEndf f s => ef_value e = f /\ ef_orig e = s
  | NFlt f => ef_value e = f /\ only_spaces (ef_orig e)
  | NInt _ => False
  end.

(** Python and C++ write the same eleven characters for a number *)
Definition same_text (o : cwopts) (preserve : bool) (wo : wopts) (v : num) (e : endf_float_cpp) : Prop :=
  exists t, length t = 11%nat /\ float2fortstr wo v = Ok t /\ cpp_endf_text o preserve e = Val t.

(** the lines of a record with their control columns and, if wanted, numbers that follow [n] *)
Definition finished (wo : wopts) (c : ctrl) (n : Z) (ls : list str) : list str :=
  let body := map (fun t : str => t ++ write_ctrl c) ls in
  if w_linenum wo then number_lines 1 n body else body.

(** C++ reads the control numbers [c] on the line *)
Definition cpp_control (c : ctrl) (l : str) : Prop :=
  cpp_read_mat_number l = Val (MAT c) /\ cpp_read_mf_number l = Val (MF c) /\ cpp_read_mt_number l = Val (MT c).

(** a finite double, or an integer that is a double *)
Definition plain_number (v : num) : Prop :=
  match v with NInt z => - 2 ^ 53 <= z <= 2 ^ 53 | NFlt f | NEndf f _ => is_finite f = true end.

(** the options of the Python parser that the C++ parser knows *)
Definition checks_of (o : popts) : cpopts := {| cp_zero := o_zero o; cp_number := o_number o; cp_varspec := o_varspec o |}.
