(** Model of the module that the compiler makes of the recipes, for writing. *)
From Coq Require Import Ascii String ZArith Bool List.
From Verif Require Import PyBase PyFloat ModelFortran ModelRecords ModelTape ModelNum ModelRecipe ModelInterp ModelParser.
From Verif Require Import ModelCpp ModelCppTab ModelCppArr ModelCppGen ModelCppWrite.
Import ListNotations.
Open Scope Z_scope.

(** code_generator_writing.py 536-563: the constant MT of the function for a section; none if the
    recipe is that of a whole MF number or has the key -1 *)
Definition recipe_mt (rs : recipes) (mf mt : Z) : option Z :=
  match zget mf rs with
  | Some (RByMt l) => match zget mt l with Some _ => if mt =? -1 then None else Some mt | None => None end
  | _ => None
  end.

(** code_generator_writing.py 424-455, code_generator_writing_core.py 78-90: the function for a section;
    [other] is a function that is not in the model *)
Definition compiled_section (o : cwopts) (preserve : bool) (rs : recipes) (other : block -> dict -> cpp str) (mf mt : Z) (d : dict)
  : cpp str :=
  match find_recipe rs mf mt with
  | Some b =>
      match compile_vars b, compile_text b with
      | Some _, _ => let* (t, _) := compiled_write o preserve b mf (recipe_mt rs mf mt) d in Val t
      | None, Some _ => let* (t, _) := compiled_write_text o preserve b mf (recipe_mt rs mf mt) d in Val t
      | None, None => other b d
      end
  | None => Undefined        (* not reached *)
  end.

(** code_generator_writing.py 339-353: [mt_dict["MAT"]]. Simplified: if the entry is no integer, the
    function of the section has raised an exception before. *)
Definition compiled_mat (d : dict) : Z := match dget (KStr $"MAT") d with Some (VNum (NInt z)) => z | _ => 0 end.

(** [write_endf], code_generator_writing.py 356-488 *)
Definition compiled_write_file (o : cwopts) (preserve : bool) (rs : recipes) (other : block -> dict -> cpp str) (exclude include : selection)
  (d : mfdic (section dict)) : cpp str :=
  master_write (compiled_section o preserve rs other) compiled_mat (has_recipe rs) o exclude include d.
