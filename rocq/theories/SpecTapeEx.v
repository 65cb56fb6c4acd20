(** The tape used in examples. *)
From Coq Require Import Ascii String ZArith Bool List.
From Verif Require Import PyBase PyFloat ModelFortran ModelRecords ModelTape SpecFields SpecLibm SpecTape.
Import ListNotations.
Open Scope Z_scope.

Definition ex_line (txt : str) (mat mf mt : Z) : str := ljust 66 txt ++ write_ctrl (mkctrl mat mf mt).
Definition ex_head : str := ex_line $"example tape" 1 0 0.
Definition ex_l1 : str := ex_line $" 1.001000+3 9.991673-1          0" 125 3 1 ++ $"    7".
Definition ex_l2 : str := ex_line $" second line" 125 3 1.
Definition ex_l3 : str := ex_line $" another section" 125 3 2.
Definition ex_l4 : str := ex_line $" another file" 125 33 1.
Definition ex_dict : mfdic (list str) :=
  [(33, [(1, [ex_l4])]); (3, [(2, [ex_l3]); (1, [ex_l1; ex_l2])]); (0, [(0, [ex_head])])].
Definition ex_recipe : Z -> Z -> unit -> result (list str * ctrl) := fun _ _ _ => Err KeyError.
Definition ex_tape : list str :=
  match write_tape ex_recipe default_ro default_wo false None None (raw_dict ex_dict) with Ok l => l | Err _ => [] end.
Definition ex_parse : unit -> Z -> Z -> list str -> result unit * unit := fun p _ _ _ => (Err NumberMismatchError, p).
