(** The module that the compiler makes of a dictionary of recipes, for reading. *)
From Coq Require Import Ascii String ZArith Bool List.
From Verif Require Import PyBase PyFloat ModelFortran ModelRecords ModelTape ModelNum ModelRecipe ModelInterp ModelParser.
From Verif Require Import ModelCpp ModelCppTab ModelCppRead ModelCppGen.
Import ListNotations.
Open Scope Z_scope.

(** compiler/code_generator_parsing.py 334-360: the function that is called for a
    section is the one of the recipe for its MF and MT. Functions of recipes that are not in
    ModelCppGen.v are given by [other]. *)
Definition compiled_module (co : copts) (rs : recipes) (other : block -> list str -> cpp (dict * list str))
    (mf mt : Z) (lines : list str) : cpp (dict * list str) :=
  match find_recipe rs mf mt with
  | Some b =>
      match compile_vars b with
      | Some _ => let* (d, behind, _) := compiled_run co b lines in Val (d, behind)
      | None =>
          match compile_text b with
          | Some _ => let* (d, behind, _) := compiled_text co b lines in Val (d, behind)
          | None => other b lines
          end
      end
  | None => Undefined                 (* not reached *)
  end.

(** the compiled parser (cpp_parsers/endf_parser_cpp.py 195-257) *)
Definition compiled_parse (co : copts) (o : croopts) (rs : recipes) (other : block -> list str -> cpp (dict * list str))
    (exclude include : selection) (lines : list str) : cpp (mfdic (section dict)) :=
  master_read (compiled_module co rs other) (has_recipe rs) o exclude include lines.
