(** Specification for C68. Comparison by value is [rel_num] of SpecInterp. *)
From Coq Require Import Ascii String ZArith List.
From Verif Require Import PyBase PyFloat ModelFortran ModelRecords ModelTape ModelNum ModelRecipe ModelInterp.
Open Scope Z_scope.

(** the number without its text *)
Definition bare (a : num) : num := match a with NEndf f _ => NFlt f | _ => a end.
(** ints that floats represent exactly *)
Definition small (a : num) : Prop := match a with NInt z => Z.abs z <= 2 ^ 53 | _ => True end.

(** a list of ints as a value *)
Definition vints (l : list Z) : val := VList (map vint l).
