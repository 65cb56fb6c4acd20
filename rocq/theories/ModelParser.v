(** The parser object: recipes and the interpreter put into the drivers of ModelTape.v. *)
From Coq Require Import Ascii String ZArith Bool Lia List.
From Verif Require Import PyBase PyFloat ModelFortran ModelRecords ModelTape ModelNum ModelRecipe ModelInterp.
Import ListNotations.
Open Scope Z_scope.

(** tree_dic: for an MF number one recipe, or recipes by MT number (endf_recipe_utils.py
    45-60) *)
Inductive rentry : Type := ROne (b : block) | RByMt (l : list (Z * block)).
Definition recipes : Type := list (Z * rentry).

Fixpoint zget {A} (k : Z) (l : list (Z * A)) : option A :=
  match l with
  | [] => None
  | (k', v) :: r => if k =? k' then Some v else zget k r
  end.

(** endf_recipe_utils.py 63-71 *)
Definition find_recipe (rs : recipes) (mf mt : Z) : option block :=
  match zget mf rs with
  | None => None
  | Some (ROne b) => Some b
  | Some (RByMt l) => match zget mt l with Some b => Some b | None => zget (-1) l end
  end.
Definition has_recipe (rs : recipes) (mf mt : Z) : bool :=
  match find_recipe rs mf mt with Some _ => true | None => false end.

(** the configuration of a parser object (endf_parser.py 180-322); parse_opts is its
    only part that changes. *)
Record parser : Type := {
  p_ro : ropts; p_wo : wopts; p_depth : nat; p_recipes : recipes; p_explain : bool
}.

Definition parse_one (p : parser) (o : popts) (mf mt : Z) (lines : list str) : result dict * popts :=
  match find_recipe (p_recipes p) mf mt with
  | Some b => parse_recipe (read_env (p_ro p) (p_wo p) (p_depth p)) b o lines
  | None => (Err KeyError, o)        (* not reached *)
  end.

(** endf_parser.py 909-988 *)
Definition parse (p : parser) (nofail : bool) (exclude include : selection) (o : popts) (lines : list str)
  : result (mfdic (section dict)) * popts :=
  parse_tape (parse_one p) (has_recipe (p_recipes p)) (p_ro p) (p_wo p) nofail exclude include o lines.

(** the options after a sequence of calls of parse *)
Record call : Type := { c_nofail : bool; c_exclude : selection; c_include : selection; c_lines : list str }.
Definition after_call (p : parser) (o : popts) (c : call) : popts :=
  snd (parse p (c_nofail c) (c_exclude c) (c_include c) o (c_lines c)).
Definition after_calls (p : parser) (o : popts) (cs : list call) : popts := fold_left (after_call p) cs o.

(** endf_parser.py 1019-1069; a dictionary without a recipe fails in line 1100 *)
Definition write_one (p : parser) (zero_as_blank : bool) (o : popts) (mf mt : Z) (d : dict)
  : result (list str * ctrl) :=
  match find_recipe (p_recipes p) mf mt with
  | Some b => fst (write_recipe (write_env (p_ro p) (p_wo p) zero_as_blank (p_depth p)) (p_explain p) b o mf mt d)
  | None => Err KeyError
  end.

(** endf_parser.py 990-1146 with check_arrays=False *)
Definition write (p : parser) (zero_as_blank : bool) (exclude include : selection) (o : popts)
  (d : mfdic (section dict)) : result (list str) :=
  write_tape (write_one p zero_as_blank o) (p_ro p) (p_wo p) zero_as_blank exclude include d.
