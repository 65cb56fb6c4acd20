(** Specification of the options and texts of the two parser classes (C65). *)
From Coq Require Import Ascii String ZArith Bool List.
From Verif Require Import PyBase PyFloat ModelFortran ModelRecords ModelTape ModelNum ModelInterp.
From Verif Require Import ModelCpp ModelCppTab ModelCppRead ModelCppGen ModelCppParser.
From Verif Require Import SpecCpp SpecCppGen.
Import ListNotations.
Open Scope Z_scope.

(** the options that both classes have are given alike, by name; the width of fields is not changed *)
Definition alike (kw kw' : odict) : Prop :=
  (forall n, oget n py_signature <> None -> oget n cpp_signature <> None -> oget n kw = oget n kw') /\
  oget $"width" kw = None.
(** yes/no options are no strings, and the type of arrays is a string *)
Definition good_values (kw : odict) : Prop :=
  (forall n v s, oget n kw = Some v -> n <> $"array_type" -> n <> $"endf_format" -> v <> OStr s) /\
  (forall v, oget $"array_type" kw = Some v -> exists s, v = OStr s).
(** what the user asked for: the given value, or else the documented default *)
Definition wish (kw : odict) (n : str) (default : bool) : bool :=
  match oget n kw with Some v => truth v | None => default end.

(** no line feed within a line *)
Definition one_line (l : str) : Prop := ~ In (ascii_of_nat 10) l.
