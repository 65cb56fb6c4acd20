(** Specification vocabulary for the comparison of the C++ templates with the Python code. *)
From Coq Require Import Ascii String ZArith QArith Bool Lia List.
From Coq Require Import Floats.SpecFloat.
From Verif Require Import PyBase PyFloat ModelFortran ModelRecords ModelTape SpecFields SpecFloat ModelCpp.
Import ListNotations.
Open Scope Z_scope.

(** the integers of the type [int] *)
Definition int32 (z : Z) : Prop := - 2 ^ 31 <= z < 2 ^ 31.

(** only spaces *)
Definition only_spaces (s : str) : Prop := forall c, In c s -> c = " "%char.

(** zero, or at least the smallest normal double and no overflow *)
Definition in_double_range (m e : Z) : Prop :=
  m = 0 \/ (Qpower 2 (-1022) <= decimalQ m e /\ decimalQ m e < overflow_threshold)%Q.

(** the number in the field [s] is zero or a normal double *)
Definition field_in_range (accept : bool) (s : str) : Prop :=
  forall t neg m e, fortran_text t neg m e -> field_text accept t s -> in_double_range m e.

(** field number [k] of the lines from [ofs] on, six fields of eleven columns to a line *)
Definition field_no (lines : list str) (ofs k : nat) : str :=
  slice (k mod 6 * 11) (k mod 6 * 11 + 11) (nth (ofs + k / 6) lines []).

(** the double in a number that has been read *)
Definition double_of (v : num) : spec_float := match v with NFlt f | NEndf f _ => f | NInt _ => S754_zero false end.

(** the options of the two writers agree *)
Definition same_options (o : cwopts) (wo : wopts) : Prop :=
  w_abuse wo = cw_abuse o /\ w_keepE wo = cw_keepE o /\ w_noexp wo = cw_noexp o /\
  w_skip wo = cw_skip o /\ w_linenum wo = cw_linenum o /\ w_width wo = 11%nat.

(** the lines of a file as text *)
Definition text_of (ls : list str) : str := concat (map (fun l => l ++ [ascii_of_nat 10]) ls).

(** [l] has the control numbers [c] in columns 67-75 *)
Definition control_in (c : ctrl) (l : str) : Prop :=
  exists a b, l = a ++ write_ctrl c ++ b /\ length a = 66%nat.

(** a section kept as lines: all of the same MAT/MF/MT, at most 99999 lines *)
Definition lines_of_section (mf : Z) (c : ctrl) (ls : list str) : Prop :=
  ls <> [] /\ Z.of_nat (length ls) <= 99999 /\ MF c = mf /\ ctrl_fits c /\ Forall (control_in c) ls.

(** What the two programs do with one section: a section kept as lines is in order, and for
    a parsed section the two writers of its recipe produce the same text and know the same MAT. *)
Definition alike {D} (run_recipe : Z -> Z -> D -> result (list str * ctrl)) (run_cpp : Z -> Z -> D -> cpp str)
    (mat_of : D -> Z) (ro : ropts) (wo : wopts) (mf mt : Z) (s : section D) : Prop :=
  match s with
  | Raw ls => exists c, lines_of_section mf c ls
  | Parsed d => forall num c, write_section run_recipe ro wo false mf mt (Parsed d) = Ok (num, c) ->
      MAT c = mat_of d /\ in_field 4 (MAT c) /\ run_cpp mf mt d = Val (text_of num)
  end.
