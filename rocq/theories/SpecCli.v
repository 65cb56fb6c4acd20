(** Specification of the options and commands of the command line (C66). *)
From Coq Require Import Ascii String ZArith Bool List.
From Verif Require Import PyBase PyFloat ModelFortran ModelRecords ModelTape ModelNum ModelInterp ModelCppParser.
Import ListNotations.
Open Scope Z_scope.

(** the options of the parser that the command line has *)
Definition cli_names : list str :=
  [ $"ignore_number_mismatch"; $"ignore_zero_mismatch"; $"fuzzy_matching"; $"ignore_varspec_mismatch"; $"accept_spaces";
    $"ignore_blank_lines"; $"ignore_send_records"; $"ignore_missing_tpid"; $"print_cache_info"; $"endf_format"; $"loglevel";
    $"preserve_value_strings"; $"array_type" ].
(** the value given for [n]: what the command insists on comes before what the user gave; None counts as not given *)
Definition given (v : option oval) : option oval := match v with Some ONone => None | _ => v end.
Definition asked (args insist : odict) (n : str) : option oval :=
  match oget n insist with Some v => given (Some v) | None => given (oget n args) end.
(** the options [a] of an object of the class with the given parameters are what was asked for, and default
    values otherwise *)
Definition as_asked (signature a args insist : odict) : Prop :=
  forall n d, oget n signature = Some d ->
    (In n cli_names -> arg n a = match asked args insist n with Some v => v | None => d end) /\
    (~ In n cli_names -> arg n a = d).

(** the section to which a path leads; a path may also lead to all sections of an MF number *)
Definition leads_to (path : list key) (mf mt : Z) : Prop :=
  match path with
  | [KInt a] => a = mf
  | KInt a :: KInt b :: _ => a = mf /\ b = mt
  | _ => False
  end.
