(** Recipes and sections used in examples. *)
From Coq Require Import Ascii String ZArith Bool List.
From Coq Require Import Floats.SpecFloat.
From Verif Require Import PyBase PyFloat ModelFortran ModelRecords ModelTape ModelNum ModelRecipe ModelInterp ModelParser.
From Verif Require Import SpecFields SpecLibm SpecTape SpecTapeEx SpecInterp.
Import ListNotations.
Open Scope Z_scope.

Fixpoint blk (l : list instr) : block := match l with [] => BNil | i :: r => BCons i (blk r) end.
Definition ev0 (x : string) : expr := EVar (list_ascii_of_string x) [].
Definition ev1 (x i : string) : expr := EVar (list_ascii_of_string x) [IVar (list_ascii_of_string i)].
Definition ei (z : Z) : expr := ENum false (NInt z).
Definition ef0 : expr := ENum false (NFlt (S754_zero false)).
Definition anyspec : ctrlspec := {| cs_mat := None; cs_mf := None; cs_mt := None |}.
Definition f6 (a b c d e f : expr) : fields6 :=
  {| f_c1 := a; f_c2 := b; f_l1 := c; f_l2 := d; f_n1 := e; f_n2 := f |}.
Definition strict_opts : popts :=
  {| o_zero := false; o_number := false; o_varspec := false; o_fuzzy := false; o_all := false |}.
Definition ex_renv : env := read_env default_ro default_wo 100.
Definition ex_wenv : env := write_env default_ro default_wo false 100.

(** [MAT,MF,MT/ ZA, AWR, 0, LEVEL, NK, 0]HEAD
    for k=1 to NK: [MAT,MF,MT/ E[k], 0.0, L[k]+1, 0, NK, 0]CONT endfor
    if LEVEL==2: (subsection) [MAT,MF,MT/ Q, 0.0, 0, 0, 0, 0]CONT (/subsection) endif *)
Definition ex_head_rec : instr := ICont true anyspec (f6 (ev0 "ZA") (ev0 "AWR") (ei 0) (ev0 "LEVEL") (ev0 "NK") (ei 0)).
Definition ex_loop : instr :=
  IFor $"k" (ei 1) (ev0 "NK")
    (blk [ICont false anyspec (f6 (ev1 "E" "k") ef0 (EAdd (ev1 "L" "k") (ei 1)) (ei 0) (ev0 "NK") (ei 0))]).
Definition ex_sec : instr :=
  ISection ($"sub", []) ($"sub", []) (blk [ICont false anyspec (f6 (ev0 "Q") ef0 (ei 0) (ei 0) (ei 0) (ei 0))]).
Definition ex_if : instr :=
  IIf (Branch (CRel REq (ev0 "LEVEL") (ei 2)) None (blk [ex_sec])) RNil BNil.
Definition ex_body : block := blk [ex_head_rec; ex_loop; ex_if].

Definition ex_sl (txt : str) : str := ex_line txt 125 3 1.
Definition ex_slines : list str :=
  [ex_sl $" 1.001000+3 9.991673-1          0          2          2          0";
   ex_sl $" 1.500000+0 0.000000+0          5          0          2          0";
   ex_sl $" 2.500000+0 0.000000+0          8          0          2          0";
   ex_sl $"-7.000000+0 0.000000+0          0          0          0          0"].
Definition ex_send : str := ex_line $"" 125 3 0.
Definition ex_state (d : dict) (l : list (str * Z)) (ls : list str) : pstate :=
  set_loops l (set_dic d (reset_state strict_opts ls [])).

(** ** Parsers *)

Definition ex_parser (rs : recipes) : parser :=
  {| p_ro := default_ro; p_wo := default_wo; p_depth := 100; p_recipes := rs; p_explain := true |}.
(** a tape with the sections MF=3, MT=1 and MF=3, MT=2 *)
Definition ex_tape_of (secs : mtdic (list str)) : list str :=
  match write_tape ex_recipe default_ro default_wo false None None (raw_dict [(0, [(0, [ex_head])]); (3, secs)]) with
  | Ok l => l | Err _ => [] end.

(** [MAT,MF,MT/ ZA, AWR, 0, 0, NK, 0]HEAD
    if Q==1 [lookahead=1]: [MAT,MF,MT/ Q, 0.0, 0, 0, 0, 0]CONT endif
    SEND *)
Definition ex_look_if : instr :=
  IIf (Branch (CRel REq (ev0 "Q") (ei 1)) (Some (ei 1))
         (blk [ICont false anyspec (f6 (ev0 "Q") ef0 (ei 0) (ei 0) (ei 0) (ei 0))])) RNil BNil.
Definition ex_look : block :=
  blk [ICont true anyspec (f6 (ev0 "ZA") (ev0 "AWR") (ei 0) (ei 0) (ev0 "NK") (ei 0)); ex_look_if; ISend].
(** a section the recipe accepts, one with a number that differs from the recipe, and one
    with something that is no number *)
Definition ex_good : list str :=
  [ex_sl $" 1.001000+3 9.991673-1          0          0          2          0";
   ex_sl $" 1.000000+0 0.000000+0          0          0          0          0"].
Definition ex_mismatch : list str :=
  [ex_sl $" 1.001000+3 9.991673-1          7          0          2          0"].
Definition ex_garbage : list str :=
  [ex_sl $" 1.001000+3 9.991673-1          0          0          2          0";
   ex_sl $" 1.000000+0 not a num           0          0          0          0"].
Definition ex_look_parser : parser := ex_parser [(3, RByMt [(1, ex_look); (-1, then_send ex_body)])].

(** [MAT,MF,MT/ ZA, AWR, 0, 0, NK, 0]HEAD
    [MAT,MF,MT/ 0.0, 0.0, 0, 0, NW, 0/ {X[i]}{i=1 to NW}]LIST
    SEND *)
Definition ex_list : block :=
  blk [ICont true anyspec (f6 (ev0 "ZA") (ev0 "AWR") (ei 0) (ei 0) (ev0 "NK") (ei 0));
       IList anyspec (f6 ef0 ef0 (ei 0) (ei 0) (ev0 "NW") (ei 0))
         (LCons (LLoop $"i" (ei 1) (ev0 "NW") (LCons (LExpr (ev1 "X" "i")) LNil)) LNil) None;
       ISend].
(** the list is shorter than announced *)
Definition ex_truncated : list str :=
  [ex_sl $" 1.001000+3 9.991673-1          0          0          2          0";
   ex_sl $" 0.000000+0 0.000000+0          0          0         20          0";
   ex_sl $" 1.000000+0 2.000000+0 3.000000+0"].

(** a section for the recipe [ex_body], and one with a number instead of 0 *)
Definition ex_sec2 : list str := map (fun l => ex_line (firstn 66 l) 125 3 2) ex_slines.
Definition ex_zero : list str :=
  [ex_sl $" 1.001000+3 9.991673-1          7          0          2          0";
   ex_sl $" 1.000000+0 0.000000+0          0          0          0          0"].
Definition lax_opts : popts :=
  {| o_zero := true; o_number := true; o_varspec := true; o_fuzzy := false; o_all := false |}.
