(** The recipe dictionaries of the package (endf_recipes). *)
From Coq Require Import Ascii String ZArith Bool List.
From Verif Require Import PyBase PyFloat ModelFortran ModelRecords ModelTape ModelNum ModelRecipe ModelInterp ModelParser ModelRecipes.
Import ListNotations.
Open Scope Z_scope.

(** endf_recipes/utils.py 1-6 for an index of one or two numbers. A recipe is a str, on
    which item assignment raises TypeError. *)
Definition defdic (d : recipes) (index : list Z) (b : block) : result recipes :=
  match index with
  | [mf] => Ok (zset mf (ROne b) d)
  | [mf; mt] =>
      match zget mf d with
      | None => Ok (zset mf (RByMt [(mt, b)]) d)
      | Some (RByMt l) => Ok (zset mf (RByMt (zset mt b l)) d)
      | Some (ROne _) => Err TypeError
      end
  | _ => Err TypeError            (* not used *)
  end.
Fixpoint defdics (l : list (list Z * block)) (d : recipes) : result recipes :=
  match l with
  | [] => Ok d
  | (i, b) :: r => do d' <- defdic d i b; defdics r d'
  end.

(** the SEND at the end of a recipe, which ModelRecipes.v leaves out *)
Fixpoint with_send (b : block) : block :=
  match b with
  | BNil => BCons ISend BNil
  | BCons i r => BCons i (with_send r)
  end.

(** endf_recipes/endf6/__init__.py 43-81. The recipe of the tape head has no SEND. *)
Definition endf6_defs : list (list Z * block) :=
  [([0; 0], mf0_mt0_tapehead);
   ([1; 451], with_send mf1_mt451);
   ([1; 452], with_send mf1_mt452);
   ([1; 455], with_send mf1_mt455);
   ([1; 456], with_send mf1_mt456);
   ([1; 458], with_send mf1_mt458);
   ([1; 460], with_send mf1_mt460);
   ([2; 151], with_send mf2_mt151);
   ([3], with_send mf3);
   ([4], with_send mf4);
   ([5], with_send mf5);
   ([6], with_send mf6);
   ([7; 2], with_send mf7_mt2);
   ([7; 4], with_send mf7_mt4);
   ([7; 451], with_send mf7_mt451);
   ([8; (-1)], with_send mf8);
   ([8; 454], with_send mf8_mt454);
   ([8; 457], with_send mf8_mt457);
   ([8; 459], with_send mf8_mt459);
   ([9], with_send mf9);
   ([10], with_send mf10);
   ([12], with_send mf12);
   ([13], with_send mf13);
   ([14], with_send mf14);
   ([15], with_send mf15);
   ([23], with_send mf23);
   ([26], with_send mf26);
   ([27], with_send mf27);
   ([28], with_send mf28);
   ([31; 452], with_send mf31_mt452_455_456);
   ([31; 455], with_send mf31_mt452_455_456);
   ([31; 456], with_send mf31_mt452_455_456);
   ([31], with_send mf31_mt452_455_456);
   ([32], with_send mf32);
   ([33], with_send mf33);
   ([34], with_send mf34);
   ([35], with_send mf35);
   ([40], with_send mf40)].
(** endf_recipes/jendl/__init__.py 9-10 *)
Definition jendl_defs : list (list Z * block) :=
  [([8; 457], with_send jendl_mf8_mt457)].
(** endf_recipes/pendf/__init__.py 13-19 *)
Definition pendf_defs : list (list Z * block) :=
  [([1; 451], with_send pendf_mf1_mt451);
   ([2; 152], with_send pendf_mf2_mt152);
   ([2; 153], with_send pendf_mf2_mt153);
   ([3], with_send pendf_mf3);
   ([6], with_send pendf_mf6);
   ([23], with_send pendf_mf23)].
(** endf_recipes/endf6_ext/__init__.py 9-11 *)
Definition endf6_ext_defs : list (list Z * block) :=
  [([8; 457], with_send jendl_mf8_mt457);
   ([4], with_send endf6_ext_mf4)].

(** endf_recipes/__init__.py 1-24 *)
Definition get_recipe_dict (format : str) : result recipes :=
  if str_eqb format $"endf6" then defdics endf6_defs [] else
  if str_eqb format $"endf6-ext" then defdics (endf6_defs ++ endf6_ext_defs) [] else
  if str_eqb format $"jendl" then defdics (endf6_defs ++ jendl_defs) [] else
  if str_eqb format $"pendf" then defdics (endf6_defs ++ pendf_defs) [] else
  Err TypeError.
Definition list_endf_flavors : list str := [$"endf6-ext"; $"endf6"; $"jendl"; $"pendf"].
