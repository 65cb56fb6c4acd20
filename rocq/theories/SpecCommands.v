(** Specification of the commands that look at files (C67). *)
From Coq Require Import Ascii String ZArith Bool List.
From Coq Require Import Floats.SpecFloat.
From Verif Require Import PyBase PyFloat ModelFortran ModelRecords ModelTape ModelNum ModelInterp ModelParser ModelTools ModelCli.
Import ListNotations.
Open Scope Z_scope.

(** A parser object with the options [o] that has not been used before reads the file as [d]. *)
Definition reads_as (p : parser) (read : str -> result (list str)) (o : popts) (file : str) (d : mfdic (section dict)) : Prop :=
  exists lines, read file = Ok lines /\ fst (parse p false None None o lines) = Ok d.
Definition valid_file (p : parser) (read : str -> result (list str)) (o : popts) (file : str) : Prop :=
  exists d, reads_as p read o file d.
(** the tolerances of the command line, everything else as by default *)
Definition tolerance (atol rtol : spec_float) : cmpopts :=
  {| c_atol := atol; c_rtol := rtol; c_strlen := false; c_rstrip := false; c_cut := None; c_fail := false |}.
