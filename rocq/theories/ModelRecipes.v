(** The recipes of endf_recipes/endf6, endf_recipes/jendl, endf_recipes/pendf and
    endf_recipes/endf6_ext as abstract syntax.
    Generated from the recipe texts by tools/recipes.py; each definition cites its file.
    Comments in recipes (variable descriptions) leave no trace. The word in the place of
    the table fields of a TAB2 record (Z in "/ Z]TAB2") is never used and left out. *)
From Coq Require Import Ascii String ZArith Bool Lia List.
From Coq Require Import Floats.SpecFloat.
From Verif Require Import PyBase ModelFortran ModelRecipe.
Import ListNotations.
Open Scope Z_scope.

Definition cspec (a b c : option Z) : ctrlspec := {| cs_mat := a; cs_mf := b; cs_mt := c |}.
Definition fields (a b c d e f : expr) : fields6 :=
  {| f_c1 := a; f_c2 := b; f_l1 := c; f_l2 := d; f_n1 := e; f_n2 := f |}.
Definition rv (x : str) : expr := EVar x [].
Definition rn (z : Z) : expr := ENum false (NInt z).
Definition r0 : expr := ENum false (NFlt (S754_zero false)).
Definition instrs : list instr -> block := fold_right BCons BNil.
Definition brs : list branch -> branches := fold_right RCons RNil.
Definition items : list litem -> lbody := fold_right LCons LNil.


(** endf_recipes/endf6/endf_recipe_mf0_mt0.py 12-15: ENDF_RECIPE_MF0_MT0_TAPEHEAD *)
Definition mf0_mt0_tapehead : block :=
  (instrs [
    IText (cspec None (Some 0) (Some 0)) [((Some ($"TAPEDESCR", [])), None)]]).

(** endf_recipes/endf6/endf_recipe_mf10.py 12-20: ENDF_RECIPE_MF10, without the SEND at the end *)
Definition mf10 : block :=
  (instrs [
    ICont true (cspec None (Some 10) None) (fields (rv $"ZA") (rv $"AWR") (rv $"LIS") (rn 0) (rv $"NS") (rn 0));
    IFor $"k" (rn 1) (rv $"NS") (instrs [
     ISection ($"subsection", [IVar $"k"]) ($"subsection", [IVar $"k"]) (instrs [
      ITab1 (cspec None (Some 10) None) (fields (rv $"QM") (rv $"QI") (rv $"IZAP") (rv $"LFS") (rv $"NR") (rv $"NP")) ($"E", []) ($"sigma", []) None])])]).

(** endf_recipes/endf6/endf_recipe_mf12.py 12-36: ENDF_RECIPE_MF12, without the SEND at the end *)
Definition mf12 : block :=
  (instrs [
    IIf (Branch (CRel REq (rv $"LO") (rn 1)) (Some (rn 1)) (instrs [
     ICont true (cspec None (Some 12) None) (fields (rv $"ZA") (rv $"AWR") (rv $"LO") (rn 0) (rv $"NK") (rn 0));
     IIf (Branch (CRel RGt (rv $"NK") (rn 1)) None (instrs [
      ITab1 (cspec None (Some 12) None) (fields r0 r0 (rn 0) (rn 0) (rv $"NR") (rv $"NP")) ($"Eint", []) ($"Y", []) None]))
     (brs [])
     BNil;
     IFor $"k" (rn 1) (rv $"NK") (instrs [
      ITab1 (cspec None (Some 12) None) (fields (EVar $"Eg" [IVar $"k"]) (EVar $"ES" [IVar $"k"]) (EVar $"LP" [IVar $"k"]) (EVar $"LF" [IVar $"k"]) (rv $"NR") (rv $"NP")) ($"Eint", []) ($"y", []) (Some ($"table", [IVar $"k"]))])]))
    (brs [(Branch (CRel REq (rv $"LO") (rn 2)) (Some (rn 1)) (instrs [
     ICont true (cspec None (Some 12) None) (fields (rv $"ZA") (rv $"AWR") (rv $"LO") (rv $"LG") (rv $"NS") (rn 0));
     IIf (Branch (CRel REq (rv $"LG") (rn 1)) None (instrs [
      IList (cspec None (Some 12) None) (fields (rv $"ES_NS") r0 (rv $"LP") (rn 0) (EMul (rn 2) (rv $"NT")) (rv $"NT")) (items [LLoop $"i" (rn 1) (rv $"NT") (items [LExpr (EVar $"ES" [IVar $"i"]); LExpr (EVar $"TP" [IVar $"i"])])]) None]))
     (brs [(Branch (CRel REq (rv $"LG") (rn 2)) None (instrs [
      IList (cspec None (Some 12) None) (fields (rv $"ES_NS") r0 (rv $"LP") (rn 0) (EMul (EAdd (rv $"LG") (rn 1)) (rv $"NT")) (rv $"NT")) (items [LLoop $"i" (rn 1) (rv $"NT") (items [LExpr (EVar $"ES" [IVar $"i"]); LExpr (EVar $"TP" [IVar $"i"]); LExpr (EVar $"GP" [IVar $"i"])])]) None]))])
     BNil]))])
    BNil]).

(** endf_recipes/endf6/endf_recipe_mf13.py 12-23: ENDF_RECIPE_MF13, without the SEND at the end *)
Definition mf13 : block :=
  (instrs [
    ICont true (cspec None (Some 13) None) (fields (rv $"ZA") (rv $"AWR") (rn 0) (rn 0) (rv $"NK") (rn 0));
    IIf (Branch (CRel RGt (rv $"NK") (rn 1)) None (instrs [
     ITab1 (cspec None (Some 13) None) (fields r0 r0 (rn 0) (rn 0) (rv $"NR") (rv $"NP")) ($"E", []) ($"sigma_tot", []) None]))
    (brs [])
    BNil;
    IFor $"k" (rn 1) (rv $"NK") (instrs [
     ISection ($"subsection", [IVar $"k"]) ($"subsection", [IVar $"k"]) (instrs [
      ITab1 (cspec None (Some 13) None) (fields (rv $"EG") (rv $"ES") (rv $"LP") (rv $"LF") (rv $"NR") (rv $"NP")) ($"E", []) ($"sigma", []) None])])]).

(** endf_recipes/endf6/endf_recipe_mf14.py 12-40: ENDF_RECIPE_MF14, without the SEND at the end *)
Definition mf14 : block :=
  (instrs [
    IIf (Branch (CRel REq (rv $"LI") (rn 1)) (Some (rn 1)) (instrs [
     ICont true (cspec None (Some 14) None) (fields (rv $"ZA") (rv $"AWR") (rv $"LI") (rn 0) (rv $"NK") (rn 0))]))
    (brs [(Branch (CAnd (CRel REq (rv $"LI") (rn 0)) (CRel REq (rv $"LTT") (rn 1))) (Some (rn 1)) (instrs [
     ICont true (cspec None (Some 14) None) (fields (rv $"ZA") (rv $"AWR") (rv $"LI") (rv $"LTT") (rv $"NK") (rv $"NI"));
     IFor $"k" (rn 1) (rv $"NI") (instrs [
      ICont false (cspec None (Some 14) None) (fields (EVar $"EG" [IVar $"k"]) (EVar $"ES" [IVar $"k"]) (rn 0) (rn 0) (rn 0) (rn 0))]);
     IFor $"k" (EAdd (rv $"NI") (rn 1)) (EAdd (rv $"NI") (ESub (rv $"NK") (rv $"NI"))) (instrs [
      ITab2 (cspec None (Some 14) None) (fields (EVar $"EG" [IVar $"k"]) (EVar $"ES" [IVar $"k"]) (rn 0) (rn 0) (rv $"NR") (EVar $"NE" [IVar $"k"])) (Some ($"E_interpol", [IVar $"k"]));
      IFor $"l" (rn 1) (EVar $"NE" [IVar $"k"]) (instrs [
       IList (cspec None (Some 14) None) (fields r0 (EVar $"E" [IVar $"k"; IVar $"l"]) (rn 0) (rn 0) (EVar $"NL" [IVar $"k"; IVar $"l"]) (rn 0)) (items [LLoop $"m" (rn 1) (EVar $"NL" [IVar $"k"; IVar $"l"]) (items [LExpr (EVar $"a" [IVar $"k"; IVar $"l"; IVar $"m"])])]) None])])]));
    (Branch (CAnd (CRel REq (rv $"LI") (rn 0)) (CRel REq (rv $"LTT") (rn 2))) (Some (rn 1)) (instrs [
     ICont true (cspec None (Some 14) None) (fields (rv $"ZA") (rv $"AWR") (rv $"LI") (rv $"LTT") (rv $"NK") (rv $"NI"));
     IStop]))])
    BNil]).

(** endf_recipes/endf6/endf_recipe_mf15.py 12-32: ENDF_RECIPE_MF15, without the SEND at the end *)
Definition mf15 : block :=
  (instrs [
    ICont true (cspec None (Some 15) None) (fields (rv $"ZA") (rv $"AWR") (rn 0) (rn 0) (rv $"NC") (rn 0));
    IFor $"j" (rn 1) (rv $"NC") (instrs [
     ISection ($"subsection", [IVar $"j"]) ($"subsection", [IVar $"j"]) (instrs [
      IIf (Branch (CRel REq (rv $"LF") (rn 1)) (Some (rn 1)) (instrs [
       ITab1 (cspec None (Some 15) None) (fields r0 r0 (rn 0) (rv $"LF") (rv $"NR") (rv $"NP")) ($"Eint", []) ($"p", []) (Some ($"rtfm_tab1", []));
       ITab2 (cspec None (Some 15) None) (fields r0 r0 (rn 0) (rn 0) (rv $"NR") (rv $"NE")) None;
       IFor $"k" (rn 1) (rv $"NE") (instrs [
        ITab1 (cspec None (Some 15) None) (fields r0 (EVar $"E" [IVar $"k"]) (rn 0) (rn 0) (rv $"NR") (rv $"NP")) ($"Egamma", []) ($"g", []) (Some ($"rtfm1_tab", [IVar $"k"]))])]))
      (brs [])
      BNil])])]).

(** endf_recipes/endf6/endf_recipe_mf1_mt451.py 12-140: ENDF_RECIPE_MF1_MT451, without the SEND at the end *)
Definition mf1_mt451 : block :=
  (instrs [
    ICont true (cspec None (Some 1) (Some 451)) (fields (rv $"ZA") (rv $"AWR") (rv $"LRP") (rv $"LFI") (rv $"NLIB") (rv $"NMOD"));
    ICont false (cspec None (Some 1) (Some 451)) (fields (rv $"ELIS") (rv $"STA") (rv $"LIS") (rv $"LISO") (rn 0) (rv $"NFOR"));
    ICont false (cspec None (Some 1) (Some 451)) (fields (rv $"AWI") (rv $"EMAX") (rv $"LREL") (rn 0) (rv $"NSUB") (rv $"NVER"));
    ICont false (cspec None (Some 1) (Some 451)) (fields (rv $"TEMP") r0 (rv $"LDRV") (rn 0) (rv $"NWD") (rv $"NXC"));
    IText (cspec None (Some 1) (Some 451)) [((Some ($"ZSYMAM", [])), Some 11%nat); ((Some ($"ALAB", [])), Some 11%nat); ((Some ($"EDATE", [])), Some 10%nat); (None, Some 1%nat); ((Some ($"AUTH", [])), Some 33%nat)];
    IText (cspec None (Some 1) (Some 451)) [(None, Some 1%nat); ((Some ($"REF", [])), Some 21%nat); ((Some ($"DDATE", [])), Some 10%nat); (None, Some 1%nat); ((Some ($"RDATE", [])), Some 10%nat); (None, Some 12%nat); ((Some ($"ENDATE", [])), Some 8%nat); (None, Some 3%nat)];
    IFor $"i" (rn 1) (rn 3) (instrs [
     IText (cspec None (Some 1) (Some 451)) [((Some ($"HSUB", [IVar $"i"])), None)]]);
    IFor $"i" (rn 1) (ESub (rv $"NWD") (rn 5)) (instrs [
     IText (cspec None (Some 1) (Some 451)) [((Some ($"DESCRIPTION", [IVar $"i"])), None)]]);
    IFor $"i" (rn 1) (rv $"NXC") (instrs [
     IDir (cspec None (Some 1) (Some 451)) (EVar $"MFx" [IVar $"i"]) (EVar $"MTx" [IVar $"i"]) (EVar $"NCx" [IVar $"i"]) (EVar $"MOD" [IVar $"i"])])]).

(** endf_recipes/endf6/endf_recipe_mf1_mt452.py 12-21: ENDF_RECIPE_MF1_MT452, without the SEND at the end *)
Definition mf1_mt452 : block :=
  (instrs [
    ICont true (cspec None (Some 1) (Some 452)) (fields (rv $"ZA") (rv $"AWR") (rn 0) (rv $"LNU") (rn 0) (rn 0));
    IIf (Branch (CRel REq (rv $"LNU") (rn 1)) None (instrs [
     IList (cspec None (Some 1) (Some 452)) (fields r0 r0 (rn 0) (rn 0) (rv $"NC") (rn 0)) (items [LLoop $"k" (rn 1) (rv $"NC") (items [LExpr (EVar $"C" [IVar $"k"])])]) None]))
    (brs [(Branch (CRel REq (rv $"LNU") (rn 2)) None (instrs [
     ITab1 (cspec None (Some 1) (Some 452)) (fields r0 r0 (rn 0) (rn 0) (rv $"NR") (rv $"NP")) ($"Eint", []) ($"nu", []) None]))])
    BNil]).

(** endf_recipes/endf6/endf_recipe_mf1_mt455.py 12-38: ENDF_RECIPE_MF1_MT455, without the SEND at the end *)
Definition mf1_mt455 : block :=
  (instrs [
    ICont true (cspec None (Some 1) (Some 455)) (fields (rv $"ZA") (rv $"AWR") (rv $"LDG") (rv $"LNU") (rn 0) (rn 0));
    IIf (Branch (CAnd (CRel REq (rv $"LDG") (rn 0)) (CRel REq (rv $"LNU") (rn 2))) None (instrs [
     IList (cspec None (Some 1) (Some 455)) (fields r0 r0 (rn 0) (rn 0) (rv $"NNF") (rn 0)) (items [LLoop $"k" (rn 1) (rv $"NNF") (items [LExpr (EVar $"lambda" [IVar $"k"])])]) None;
     ITab1 (cspec None (Some 1) (Some 455)) (fields r0 r0 (rn 0) (rn 0) (rv $"NR") (rv $"NP")) ($"Eint", []) ($"nubar_d", []) None]))
    (brs [(Branch (CAnd (CRel REq (rv $"LDG") (rn 1)) (CRel REq (rv $"LNU") (rn 2))) None (instrs [
     ITab2 (cspec None (Some 1) (Some 455)) (fields r0 r0 (rn 0) (rn 0) (rv $"NR") (rv $"NE")) None;
     IFor $"k" (rn 1) (rv $"NE") (instrs [
      IList (cspec None (Some 1) (Some 455)) (fields r0 (EVar $"E" [IVar $"k"]) (rn 0) (rn 0) (EMul (rv $"NNF") (rn 2)) (rn 0)) (items [LLoop $"l" (rn 1) (rv $"NNF") (items [LExpr (EVar $"lambda" [IVar $"k"; IVar $"l"]); LExpr (EVar $"alpha" [IVar $"k"; IVar $"l"])])]) None]);
     ITab1 (cspec None (Some 1) (Some 455)) (fields r0 r0 (rn 0) (rn 0) (rv $"NR") (rv $"NP")) ($"Eint", []) ($"nubar_d", []) None]));
    (Branch (CAnd (CRel REq (rv $"LDG") (rn 0)) (CRel REq (rv $"LNU") (rn 1))) None (instrs [
     IList (cspec None (Some 1) (Some 455)) (fields r0 r0 (rn 0) (rn 0) (rv $"NNF") (rn 0)) (items [LLoop $"k" (rn 1) (rv $"NNF") (items [LExpr (EVar $"lambda" [IVar $"k"])])]) None;
     IList (cspec None (Some 1) (Some 455)) (fields r0 r0 (rn 0) (rn 0) (rn 1) (rn 0)) (items [LExpr (rv $"nubar_d")]) None]));
    (Branch (CAnd (CRel REq (rv $"LDG") (rn 1)) (CRel REq (rv $"LNU") (rn 1))) None (instrs [
     ITab2 (cspec None (Some 1) (Some 455)) (fields r0 r0 (rn 0) (rn 0) (rv $"NR") (rv $"NE")) None;
     IFor $"k" (rn 1) (rv $"NE") (instrs [
      IList (cspec None (Some 1) (Some 455)) (fields r0 (rv $"E1") (rn 0) (rn 0) (EMul (rv $"NNF") (rn 2)) (rn 0)) (items [LLoop $"l" (rn 1) (rv $"NNF") (items [LExpr (EVar $"lambda" [IVar $"k"; IVar $"l"]); LExpr (EVar $"alpha" [IVar $"k"; IVar $"l"])])]) None]);
     IList (cspec None (Some 1) (Some 455)) (fields r0 r0 (rn 0) (rn 0) (rv $"NC") (rn 0)) (items [LLoop $"k" (rn 1) (rv $"NC") (items [LExpr (EVar $"nubar_d" [IVar $"k"])])]) None]))])
    BNil]).

(** endf_recipes/endf6/endf_recipe_mf1_mt456.py 12-21: ENDF_RECIPE_MF1_MT456, without the SEND at the end *)
Definition mf1_mt456 : block :=
  (instrs [
    ICont true (cspec None (Some 1) (Some 456)) (fields (rv $"ZA") (rv $"AWR") (rn 0) (rv $"LNU") (rn 0) (rn 0));
    IIf (Branch (CRel REq (rv $"LNU") (rn 2)) None (instrs [
     ITab1 (cspec None (Some 1) (Some 456)) (fields r0 r0 (rn 0) (rn 0) (rv $"NR") (rv $"NP")) ($"Eint", []) ($"nubar_p", []) None]))
    (brs [(Branch (CRel REq (rv $"LNU") (rn 1)) None (instrs [
     IList (cspec None (Some 1) (Some 456)) (fields r0 r0 (rn 0) (rn 0) (rn 1) (rn 0)) (items [LExpr (rv $"nubar_p")]) None]))])
    BNil]).

(** endf_recipes/endf6/endf_recipe_mf1_mt458.py 12-37: ENDF_RECIPE_MF1_MT458, without the SEND at the end *)
Definition mf1_mt458 : block :=
  (instrs [
    IIf (Branch (CAnd (CRel REq (rv $"LFC") (rn 0)) (CRel REq (rv $"NPLY") (rn 0))) (Some (rn 2)) (instrs [
     ICont true (cspec None (Some 1) (Some 458)) (fields (rv $"ZA") (rv $"AWR") (rn 0) (rv $"LFC") (rn 0) (rn 0));
     IList (cspec None (Some 1) (Some 458)) (fields r0 r0 (rn 0) (rv $"NPLY") (rn 18) (rn 9)) (items [LExpr (rv $"EFR"); LExpr (rv $"dEFR"); LExpr (rv $"ENP"); LExpr (rv $"dENP"); LExpr (rv $"END"); LExpr (rv $"dEND"); LExpr (rv $"EGP"); LExpr (rv $"dEGP"); LExpr (rv $"EGD"); LExpr (rv $"dEGD"); LExpr (rv $"EB"); LExpr (rv $"dEB"); LExpr (rv $"ENU"); LExpr (rv $"dENU"); LExpr (rv $"ER"); LExpr (rv $"dER"); LExpr (rv $"ET"); LExpr (rv $"dET")]) None]))
    (brs [(Branch (CAnd (CRel REq (rv $"LFC") (rn 0)) (CRel RGt (rv $"NPLY") (rn 0))) (Some (rn 2)) (instrs [
     ICont true (cspec None (Some 1) (Some 458)) (fields (rv $"ZA") (rv $"AWR") (rn 0) (rv $"LFC") (rn 0) (rn 0));
     IList (cspec None (Some 1) (Some 458)) (fields r0 r0 (rn 0) (rv $"NPLY") (EMul (rn 18) (EAdd (rv $"NPLY") (rn 1))) (EMul (rn 9) (EAdd (rv $"NPLY") (rn 1)))) (items [LLoop $"k" (rn 0) (rv $"NPLY") (items [LExpr (EVar $"c_EFR" [IVar $"k"]); LExpr (EVar $"dc_EFR" [IVar $"k"]); LExpr (EVar $"c_ENP" [IVar $"k"]); LExpr (EVar $"dc_ENP" [IVar $"k"]); LExpr (EVar $"c_END" [IVar $"k"]); LExpr (EVar $"dc_END" [IVar $"k"]); LExpr (EVar $"c_EGP" [IVar $"k"]); LExpr (EVar $"dc_EGP" [IVar $"k"]); LExpr (EVar $"c_EGD" [IVar $"k"]); LExpr (EVar $"dc_EGD" [IVar $"k"]); LExpr (EVar $"c_EB" [IVar $"k"]); LExpr (EVar $"dc_EB" [IVar $"k"]); LExpr (EVar $"c_ENU" [IVar $"k"]); LExpr (EVar $"dc_ENU" [IVar $"k"]); LExpr (EVar $"c_ER" [IVar $"k"]); LExpr (EVar $"dc_ER" [IVar $"k"]); LExpr (EVar $"c_ET" [IVar $"k"]); LExpr (EVar $"dc_ET" [IVar $"k"])])]) None]));
    (Branch (CAnd (CRel REq (rv $"LFC") (rn 1)) (CRel REq (rv $"NPLY") (rn 0))) (Some (rn 2)) (instrs [
     ICont true (cspec None (Some 1) (Some 458)) (fields (rv $"ZA") (rv $"AWR") (rn 0) (rv $"LFC") (rn 0) (rv $"NFC"));
     IList (cspec None (Some 1) (Some 458)) (fields r0 r0 (rn 0) (rv $"NPLY") (rn 18) (rn 9)) (items [LExpr (rv $"EFR"); LExpr (rv $"dEFR"); LExpr (rv $"ENP"); LExpr (rv $"dENP"); LExpr (rv $"END"); LExpr (rv $"dEND"); LExpr (rv $"EGP"); LExpr (rv $"dEGP"); LExpr (rv $"EGD"); LExpr (rv $"dEGD"); LExpr (rv $"EB"); LExpr (rv $"dEB"); LExpr (rv $"ENU"); LExpr (rv $"dENU"); LExpr (rv $"ER"); LExpr (rv $"dER"); LExpr (rv $"ET"); LExpr (rv $"dET")]) None;
     IFor $"k" (rn 1) (rv $"NFC") (instrs [
      ITab1 (cspec None (Some 1) (Some 458)) (fields r0 r0 (EVar $"LDRV" [IVar $"k"]) (EVar $"IFC" [IVar $"k"]) (rv $"NR") (rv $"NP")) ($"Eint", []) ($"EIFC", []) (Some ($"fiscomp", [IVar $"k"]))])]))])
    BNil]).

(** endf_recipes/endf6/endf_recipe_mf1_mt460.py 12-27: ENDF_RECIPE_MF1_MT460, without the SEND at the end *)
Definition mf1_mt460 : block :=
  (instrs [
    IIf (Branch (CRel REq (rv $"LO") (rn 1)) (Some (rn 1)) (instrs [
     ICont true (cspec None (Some 1) (Some 460)) (fields (rv $"ZA") (rv $"AWR") (rv $"LO") (rn 0) (rv $"NG") (rn 0));
     IFor $"i" (rn 1) (rv $"NG") (instrs [
      ITab1 (cspec None (Some 1) (Some 460)) (fields (EVar $"E" [IVar $"i"]) r0 (rv $"i") (rn 0) (rv $"NR") (rv $"NP")) ($"tint", [IVar $"i"]) ($"T", [IVar $"i"]) None])]))
    (brs [(Branch (CRel REq (rv $"LO") (rn 2)) (Some (rn 1)) (instrs [
     ICont true (cspec None (Some 1) (Some 460)) (fields (rv $"ZA") (rv $"AWR") (rv $"LO") (rn 0) (rn 0) (rn 0));
     IList (cspec None (Some 1) (Some 460)) (fields r0 r0 (rn 0) (rn 0) (rv $"NNF") (rn 0)) (items [LLoop $"i" (rn 1) (rv $"NNF") (items [LExpr (EVar $"lambda" [IVar $"i"])])]) None]))])
    BNil]).

(** endf_recipes/endf6/endf_recipe_mf23.py 12-17: ENDF_RECIPE_MF23, without the SEND at the end *)
Definition mf23 : block :=
  (instrs [
    ICont true (cspec None (Some 23) None) (fields (rv $"ZA") (rv $"AWR") (rn 0) (rn 0) (rn 0) (rn 0));
    ITab1 (cspec None (Some 23) None) (fields (rv $"EPE") (rv $"EFL") (rn 0) (rn 0) (rv $"NR") (rv $"NP")) ($"Eint", []) ($"sigma", []) None]).

(** endf_recipes/endf6/endf_recipe_mf26.py 12-16: ENDF_RECIPE_MF26, without the SEND at the end *)
Definition mf26 : block :=
  (instrs [
    IStop]).

(** endf_recipes/endf6/endf_recipe_mf27.py 12-17: ENDF_RECIPE_MF27, without the SEND at the end *)
Definition mf27 : block :=
  (instrs [
    ICont true (cspec None (Some 27) None) (fields (rv $"ZA") (rv $"AWR") (rn 0) (rn 0) (rn 0) (rn 0));
    ITab1 (cspec None (Some 27) None) (fields r0 (rv $"Z") (rn 0) (rn 0) (rv $"NR") (rv $"NP")) ($"xint", []) ($"H", []) None]).

(** endf_recipes/endf6/endf_recipe_mf28.py 12-16: ENDF_RECIPE_MF28, without the SEND at the end *)
Definition mf28 : block :=
  (instrs [
    IStop]).

(** endf_recipes/endf6/endf_recipe_mf2_mt151.py 12-197: ENDF_RECIPE_MF2_MT151, without the SEND at the end *)
Definition mf2_mt151 : block :=
  (instrs [
    ICont true (cspec None (Some 2) (Some 151)) (fields (rv $"ZA") (rv $"AWR") (rn 0) (rn 0) (rv $"NIS") (rn 0));
    IFor $"i" (rn 1) (rv $"NIS") (instrs [
     ISection ($"isotope", [IVar $"i"]) ($"isotope", [IVar $"i"]) (instrs [
      ICont false (cspec None (Some 2) (Some 151)) (fields (rv $"ZAI") (rv $"ABN") (rn 0) (rv $"LFW") (rv $"NER") (rn 0));
      IFor $"j" (rn 1) (rv $"NER") (instrs [
       ISection ($"range", [IVar $"j"]) ($"range", [IVar $"j"]) (instrs [
        ICont false (cspec None (Some 2) (Some 151)) (fields (rv $"EL") (rv $"EH") (rv $"LRU") (rv $"LRF") (rv $"NRO") (rv $"NAPS"));
        IIf (Branch (CAnd (CAnd (CAnd (CAnd (CRel REq (rv $"NIS") (rn 1)) (CRel REq (rv $"ZAI") (rv $"ZA"))) (CRel REq (rv $"ABN") (rn 1))) (CRel REq (rv $"LFW") (rn 0))) (CRel REq (rv $"NER") (rn 1))) None (instrs [
         IIf (Branch (CAnd (CAnd (CAnd (CRel REq (rv $"LRU") (rn 0)) (CRel REq (rv $"LRF") (rn 0))) (CRel REq (rv $"NRO") (rn 0))) (CRel REq (rv $"NAPS") (rn 0))) None (instrs [
          IIf (Branch (CRel REq (rv $"NLS") (rn 0)) (Some (rn 1)) (instrs [
           ICont false (cspec None (Some 2) (Some 151)) (fields (rv $"SPI") (rv $"AP") (rn 0) (rn 0) (rv $"NLS") (rn 0))]))
          (brs [])
          BNil]))
         (brs [])
         BNil]))
        (brs [])
        BNil;
        IIf (Branch (CRel REq (rv $"LRU") (rn 1)) None (instrs [
         IIf (Branch (COr (CRel REq (rv $"LRF") (rn 1)) (CRel REq (rv $"LRF") (rn 2))) None (instrs [
          IIf (Branch (CRel RNe (rv $"NRO") (rn 0)) None (instrs [
           ITab1 (cspec None (Some 2) (Some 151)) (fields r0 r0 (rn 0) (rn 0) (rv $"NR") (rv $"NP")) ($"Eint", []) ($"AP", []) None]))
          (brs [])
          BNil;
          IIf (Branch (CAnd (CRel RNe (rv $"NRO") (rn 0)) (COr (CRel REq (rv $"NAPS") (rn 0)) (CRel REq (rv $"NAPS") (rn 1)))) None (instrs [
           ICont false (cspec None (Some 2) (Some 151)) (fields (rv $"SPI") r0 (rn 0) (rn 0) (rv $"NLS") (rn 0))]))
          (brs [])
          (instrs [
           ICont false (cspec None (Some 2) (Some 151)) (fields (rv $"SPI") (rv $"AP") (rn 0) (rn 0) (rv $"NLS") (rn 0))]);
          IFor $"m" (rn 1) (rv $"NLS") (instrs [
           ISection ($"spingroup", [IVar $"m"]) ($"spingroup", [IVar $"m"]) (instrs [
            IList (cspec None (Some 2) (Some 151)) (fields (rv $"AWRI") (rv $"QX") (rv $"L") (rv $"LRX") (EMul (rn 6) (rv $"NRS")) (rv $"NRS")) (items [LLoop $"k" (rn 1) (rv $"NRS") (items [LExpr (EVar $"ER" [IVar $"k"]); LExpr (EVar $"AJ" [IVar $"k"]); LExpr (EVar $"GT" [IVar $"k"]); LExpr (EVar $"GN" [IVar $"k"]); LExpr (EVar $"GG" [IVar $"k"]); LExpr (EVar $"GF" [IVar $"k"])])]) None])])]))
         (brs [(Branch (CRel REq (rv $"LRF") (rn 3)) None (instrs [
          IIf (Branch (CRel RNe (rv $"NRO") (rn 0)) None (instrs [
           ITab1 (cspec None (Some 2) (Some 151)) (fields r0 r0 (rn 0) (rn 0) (rv $"NR") (rv $"NP")) ($"Eint", []) ($"AP", []) None]))
          (brs [])
          BNil;
          IIf (Branch (CAnd (CRel RNe (rv $"NRO") (rn 0)) (COr (CRel REq (rv $"NAPS") (rn 0)) (CRel REq (rv $"NAPS") (rn 1)))) None (instrs [
           ICont false (cspec None (Some 2) (Some 151)) (fields (rv $"SPI") r0 (rv $"LAD") (rn 0) (rv $"NLS") (rv $"NLSC"))]))
          (brs [])
          (instrs [
           ICont false (cspec None (Some 2) (Some 151)) (fields (rv $"SPI") (rv $"AP") (rv $"LAD") (rn 0) (rv $"NLS") (rv $"NLSC"))]);
          IFor $"m" (rn 1) (rv $"NLS") (instrs [
           ISection ($"spingroup", [IVar $"m"]) ($"spingroup", [IVar $"m"]) (instrs [
            IList (cspec None (Some 2) (Some 151)) (fields (rv $"AWRI") (rv $"APL") (rv $"L") (rn 0) (EMul (rn 6) (rv $"NRS")) (rv $"NRS")) (items [LLoop $"k" (rn 1) (rv $"NRS") (items [LExpr (EVar $"ER" [IVar $"k"]); LExpr (EVar $"AJ" [IVar $"k"]); LExpr (EVar $"GN" [IVar $"k"]); LExpr (EVar $"GG" [IVar $"k"]); LExpr (EVar $"GFA" [IVar $"k"]); LExpr (EVar $"GFB" [IVar $"k"])])]) None])])]));
         (Branch (CRel REq (rv $"LRF") (rn 7)) None (instrs [
          ICont false (cspec None (Some 2) (Some 151)) (fields r0 r0 (rv $"IFG") (rv $"KRM") (rv $"NJS") (rv $"KRL"));
          IList (cspec None (Some 2) (Some 151)) (fields r0 r0 (rv $"NPP") (rn 0) (EMul (rn 12) (rv $"NPP")) (EMul (rn 2) (rv $"NPP"))) (items [LLoop $"k" (rn 1) (rv $"NPP") (items [LExpr (EVar $"MA" [IVar $"k"]); LExpr (EVar $"MB" [IVar $"k"]); LExpr (EVar $"ZA" [IVar $"k"]); LExpr (EVar $"ZB" [IVar $"k"]); LExpr (EVar $"IA" [IVar $"k"]); LExpr (EVar $"IB" [IVar $"k"]); LExpr (EVar $"Q" [IVar $"k"]); LExpr (EVar $"PNT" [IVar $"k"]); LExpr (EVar $"SHF" [IVar $"k"]); LExpr (EVar $"MT" [IVar $"k"]); LExpr (EVar $"PA" [IVar $"k"]); LExpr (EVar $"PB" [IVar $"k"])])]) None;
          IFor $"k" (rn 1) (rv $"NJS") (instrs [
           ISection ($"spingroup", [IVar $"k"]) ($"spingroup", [IVar $"k"]) (instrs [
            IList (cspec None (Some 2) (Some 151)) (fields (rv $"AJ") (rv $"PJ") (rv $"KBK") (rv $"KPS") (EMul (rn 6) (rv $"NCH")) (rv $"NCH")) (items [LLoop $"l" (rn 1) (rv $"NCH") (items [LExpr (EVar $"PPI" [IVar $"l"]); LExpr (EVar $"L" [IVar $"l"]); LExpr (EVar $"SCH" [IVar $"l"]); LExpr (EVar $"BND" [IVar $"l"]); LExpr (EVar $"APE" [IVar $"l"]); LExpr (EVar $"APT" [IVar $"l"])])]) None;
            IIf (Branch (CRel RGt (rv $"NRS") (rn 0)) (Some (rn 1)) (instrs [
             IAbbrev $"NX" (EDiv (EMul (EAdd (EAdd (rn 1) (rv $"NCH")) (EMod (ESub (rn 5) (rv $"NCH")) (rn 6))) (rv $"NRS")) (rn 6));
             IAbbrev $"num_zeros" (EMod (ESub (rn 5) (rv $"NCH")) (rn 6));
             IList (cspec None (Some 2) (Some 151)) (fields r0 r0 (rn 0) (rv $"NRS") (EMul (rn 6) (rv $"NX")) (rv $"NX")) (items [LLoop $"n" (rn 1) (rv $"NRS") (items [LExpr (EVar $"ER" [IVar $"n"]); LLoop $"m" (rn 1) (rv $"NCH") (items [LExpr (EVar $"GAM" [IVar $"m"; IVar $"n"])]); LLoop $"p" (rn 1) (rv $"num_zeros") (items [LExpr r0])])]) None]))
            (brs [(Branch (CAnd (CRel REq (rv $"NRS") (rn 0)) (CRel REq (rv $"NX") (rn 1))) (Some (rn 1)) (instrs [
             IList (cspec None (Some 2) (Some 151)) (fields r0 r0 (rn 0) (rv $"NRS") (EMul (rn 6) (rv $"NX")) (rv $"NX")) (items [LLoop $"m" (rn 1) (rn 6) (items [LExpr r0])]) None]))])
            BNil;
            IIf (Branch (CRel RGt (rv $"KBK") (rn 0)) None (instrs [
             IFor $"n" (rn 1) (rv $"KBK") (instrs [
              ICont false (cspec None (Some 2) (Some 151)) (fields r0 r0 (rv $"LCH") (rv $"LBK") (rn 0) (rn 0));
              IIf (Branch (CRel REq (rv $"LBK") (rn 1)) None (instrs [
               ICont false (cspec None (Some 2) (Some 151)) (fields r0 r0 (rv $"LCH") (rv $"LBK") (rn 0) (rn 0));
               ITab1 (cspec None (Some 2) (Some 151)) (fields r0 r0 (rn 0) (rn 0) (rv $"NR") (rv $"NP")) ($"E", []) ($"RBR", []) (Some ($"real_part", [IVar $"n"]));
               ITab1 (cspec None (Some 2) (Some 151)) (fields r0 r0 (rn 0) (rn 0) (rv $"NR") (rv $"NP")) ($"E", []) ($"RBI", []) (Some ($"imag_part", [IVar $"n"]))]))
              (brs [(Branch (CRel REq (rv $"LBK") (rn 2)) None (instrs [
               IList (cspec None (Some 2) (Some 151)) (fields (rv $"ED") (rv $"EU") (rn 0) (rn 0) (rn 5) (rn 0)) (items [LExpr (rv $"R0"); LExpr (rv $"R1"); LExpr (rv $"R2"); LExpr (rv $"S0"); LExpr (rv $"S1")]) None]));
              (Branch (CRel REq (rv $"LBK") (rn 3)) None (instrs [
               IList (cspec None (Some 2) (Some 151)) (fields (rv $"ED") (rv $"EU") (rn 0) (rn 0) (rn 3) (rn 0)) (items [LExpr (rv $"R0"); LExpr (rv $"S0"); LExpr (rv $"GA")]) None]))])
              BNil])]))
            (brs [])
            BNil;
            IIf (Branch (CRel RGt (rv $"KPS") (rn 0)) None (instrs [
             IFor $"n" (rn 1) (rv $"NCH") (instrs [
              IList (cspec None (Some 2) (Some 151)) (fields r0 r0 (rn 0) (rn 0) (rv $"LPS") (rn 1)) (items [LExpr r0; LExpr r0; LExpr r0; LExpr r0; LExpr r0; LExpr r0]) None;
              IIf (Branch (CRel REq (rv $"LPS") (rn 1)) None (instrs [
               ITab1 (cspec None (Some 2) (Some 151)) (fields r0 r0 (rn 0) (rn 0) (rv $"NR") (rv $"NP")) ($"E", []) ($"PSR", []) (Some ($"real_part", [IVar $"n"]));
               ITab1 (cspec None (Some 2) (Some 151)) (fields r0 r0 (rn 0) (rn 0) (rv $"NR") (rv $"NP")) ($"E", []) ($"PSI", []) (Some ($"imag_part", [IVar $"n"]))]))
              (brs [])
              BNil])]))
            (brs [])
            BNil])])]))])
         BNil]))
        (brs [(Branch (CRel REq (rv $"LRU") (rn 2)) None (instrs [
         IIf (Branch (CAnd (CRel REq (rv $"LFW") (rn 0)) (CRel REq (rv $"LRF") (rn 1))) None (instrs [
          IIf (Branch (CRel RNe (rv $"NRO") (rn 0)) None (instrs [
           ITab1 (cspec None (Some 2) (Some 151)) (fields r0 r0 (rn 0) (rn 0) (rv $"NR") (rv $"NP")) ($"Eint", []) ($"AP", []) None]))
          (brs [])
          BNil;
          IIf (Branch (CAnd (CRel RNe (rv $"NRO") (rn 0)) (COr (CRel REq (rv $"NAPS") (rn 0)) (CRel REq (rv $"NAPS") (rn 1)))) None (instrs [
           ICont false (cspec None (Some 2) (Some 151)) (fields (rv $"SPI") r0 (rv $"LSSF") (rn 0) (rv $"NLS") (rn 0))]))
          (brs [])
          (instrs [
           ICont false (cspec None (Some 2) (Some 151)) (fields (rv $"SPI") (rv $"AP") (rv $"LSSF") (rn 0) (rv $"NLS") (rn 0))]);
          IFor $"p" (rn 1) (rv $"NLS") (instrs [
           ISection ($"l_group", [IVar $"p"]) ($"l_group", [IVar $"p"]) (instrs [
            IList (cspec None (Some 2) (Some 151)) (fields (rv $"AWRI") r0 (rv $"L") (rn 0) (EMul (rn 6) (rv $"NJS")) (rv $"NJS")) (items [LLoop $"m" (rn 1) (rv $"NJS") (items [LExpr (EVar $"D" [IVar $"m"]); LExpr (EVar $"AJ" [IVar $"m"]); LExpr (EVar $"AMUN" [IVar $"m"]); LExpr (EVar $"GN0" [IVar $"m"]); LExpr (EVar $"GG" [IVar $"m"]); LExpr r0])]) None])])]))
         (brs [(Branch (CAnd (CRel REq (rv $"LFW") (rn 1)) (CRel REq (rv $"LRF") (rn 1))) None (instrs [
          IList (cspec None (Some 2) (Some 151)) (fields (rv $"SPI") (rv $"AP") (rv $"LSSF") (rn 0) (rv $"NE") (rv $"NLS")) (items [LLoop $"p" (rn 1) (rv $"NE") (items [LExpr (EVar $"ES" [IVar $"p"])])]) None;
          IFor $"p" (rn 1) (rv $"NLS") (instrs [
           ISection ($"j_group", [IVar $"p"]) ($"j_group", [IVar $"p"]) (instrs [
            ICont false (cspec None (Some 2) (Some 151)) (fields (rv $"AWRI") r0 (rv $"L") (rn 0) (rv $"NJS") (rn 0));
            IFor $"n" (rn 1) (rv $"NJS") (instrs [
             ISection ($"subsec", [IVar $"n"]) ($"subsec", [IVar $"n"]) (instrs [
              IList (cspec None (Some 2) (Some 151)) (fields r0 r0 (rv $"L") (rv $"MUF") (EAdd (rv $"NE") (rn 6)) (rn 0)) (items [LExpr (rv $"D"); LExpr (rv $"AJ"); LExpr (rv $"AMUN"); LExpr (rv $"GN0"); LExpr (rv $"GG"); LExpr r0; LLoop $"m" (rn 1) (rv $"NE") (items [LExpr (EVar $"GF" [IVar $"m"])])]) None])])])])]));
         (Branch (CAnd (COr (CRel REq (rv $"LFW") (rn 0)) (CRel REq (rv $"LFW") (rn 1))) (CRel REq (rv $"LRF") (rn 2))) None (instrs [
          IIf (Branch (CRel RNe (rv $"NRO") (rn 0)) None (instrs [
           ITab1 (cspec None (Some 2) (Some 151)) (fields r0 r0 (rn 0) (rn 0) (rv $"NR") (rv $"NP")) ($"Eint", []) ($"AP", []) None]))
          (brs [])
          BNil;
          IIf (Branch (CAnd (CRel RNe (rv $"NRO") (rn 0)) (COr (CRel REq (rv $"NAPS") (rn 0)) (CRel REq (rv $"NAPS") (rn 1)))) None (instrs [
           ICont false (cspec None (Some 2) (Some 151)) (fields (rv $"SPI") r0 (rv $"LSSF") (rn 0) (rv $"NLS") (rn 0))]))
          (brs [])
          (instrs [
           ICont false (cspec None (Some 2) (Some 151)) (fields (rv $"SPI") (rv $"AP") (rv $"LSSF") (rn 0) (rv $"NLS") (rn 0))]);
          IFor $"p" (rn 1) (rv $"NLS") (instrs [
           ISection ($"l_group", [IVar $"p"]) ($"l_group", [IVar $"p"]) (instrs [
            ICont false (cspec None (Some 2) (Some 151)) (fields (rv $"AWRI") r0 (rv $"L") (rn 0) (rv $"NJS") (rn 0));
            IFor $"n" (rn 1) (rv $"NJS") (instrs [
             ISection ($"subsec", [IVar $"n"]) ($"subsec", [IVar $"n"]) (instrs [
              IList (cspec None (Some 2) (Some 151)) (fields (rv $"AJ") r0 (rv $"INT") (rn 0) (EAdd (EMul (rn 6) (rv $"NE")) (rn 6)) (rv $"NE")) (items [LExpr r0; LExpr r0; LExpr (rv $"AMUX"); LExpr (rv $"AMUN"); LExpr (rv $"AMUG"); LExpr (rv $"AMUF"); LLoop $"m" (rn 1) (rv $"NE") (items [LExpr (EVar $"ES" [IVar $"m"]); LExpr (EVar $"D" [IVar $"m"]); LExpr (EVar $"GX" [IVar $"m"]); LExpr (EVar $"GN0" [IVar $"m"]); LExpr (EVar $"GG" [IVar $"m"]); LExpr (EVar $"GF" [IVar $"m"])])]) None])])])])]))])
         BNil]))])
        BNil])])])])]).

(** endf_recipes/endf6/endf_recipe_mf3.py 12-56: ENDF_RECIPE_MF3, without the SEND at the end *)
Definition mf3 : block :=
  (instrs [
    ICont true (cspec None (Some 3) None) (fields (rv $"ZA") (rv $"AWR") (rn 0) (rn 0) (rn 0) (rn 0));
    ITab1 (cspec None (Some 3) None) (fields (rv $"QM") (rv $"QI") (rn 0) (rv $"LR") (rv $"NR") (rv $"NP")) ($"E", []) ($"xs", []) (Some ($"xstable", []))]).

(** endf_recipes/endf6/endf_recipe_mf31.py 12-28: ENDF_RECIPE_MF31, without the SEND at the end *)
Definition mf31 : block :=
  (instrs [
    ICont false (cspec None (Some 31) None) (fields r0 r0 (rn 0) (rv $"LTY") (rn 0) (rn 0));
    IIf (Branch (CRel REq (rv $"LTY") (rn 0)) None (instrs [
     IList (cspec None (Some 31) None) (fields r0 r0 (rn 0) (rn 0) (EMul (rn 2) (rv $"NCI")) (rv $"NCI")) (items [LLoop $"k" (rn 1) (rv $"NCI") (items [LExpr (EVar $"CI" [IVar $"k"]); LExpr (EVar $"XMTI" [IVar $"k"])])]) None]))
    (brs [(Branch (COr (COr (CRel REq (rv $"LTY") (rn 1)) (CRel REq (rv $"LTY") (rn 2))) (CRel REq (rv $"LTY") (rn 3))) None (instrs [
     IList (cspec None (Some 31) None) (fields r0 r0 (rv $"MATS") (rv $"MTS") (rn 4) (rn 1)) (items [LExpr (rv $"XMFS"); LExpr (rv $"XLFSS"); LExpr r0; LExpr (rv $"Weight")]) None]))])
    (instrs [
     IStop])]).

(** endf_recipes/endf6/endf_recipe_mf31_mt452_455_456.py 19-21: ENDF_RECIPE_MF31_MT452_455_456, without the SEND at the end *)
Definition mf31_mt452_455_456 : block :=
  (instrs [
    ICont true (cspec None (Some 31) None) (fields (rv $"ZA") (rv $"AWR") (rn 0) (rv $"MTL") (rn 0) (rv $"NL"));
    IIf (Branch (CRel REq (rv $"MTL") (rn 0)) None (instrs [
     IFor $"n" (rn 1) (rv $"NL") (instrs [
      ISection ($"subsection", [IVar $"n"]) ($"subsection", [IVar $"n"]) (instrs [
       ICont false (cspec None (Some 31) None) (fields (rv $"XMF1") (rv $"XLFS1") (rv $"MAT1") (rv $"MT1") (rv $"NC") (rv $"NI"));
       IFor $"m" (rn 1) (rv $"NC") (instrs [
        ISection ($"nc_subsection", [IVar $"m"]) ($"nc_subsection", [IVar $"m"]) (instrs [
         ICont false (cspec None (Some 31) None) (fields r0 r0 (rn 0) (rv $"LTY") (rn 0) (rn 0));
         IIf (Branch (CRel REq (rv $"LTY") (rn 0)) None (instrs [
          IList (cspec None (Some 31) None) (fields (rv $"E1") (rv $"E2") (rn 0) (rn 0) (EMul (rn 2) (rv $"NCI")) (rv $"NCI")) (items [LLoop $"i" (rn 1) (rv $"NCI") (items [LExpr (EVar $"C" [IVar $"i"]); LExpr (EVar $"XMT" [IVar $"i"])])]) None]))
         (brs [(Branch (CAnd (CRel RGe (rv $"LTY") (rn 1)) (CRel RLe (rv $"LTY") (rn 3))) None (instrs [
          IList (cspec None (Some 31) None) (fields (rv $"E1") (rv $"E2") (rv $"MATS") (rv $"MTS") (EAdd (EMul (rn 2) (rv $"NEI")) (rn 2)) (rv $"NEI")) (items [LExpr (rv $"XMFS"); LExpr (rv $"XLFSS"); LLoop $"i" (rn 1) (rv $"NEI") (items [LExpr (EVar $"E" [IVar $"i"]); LExpr (EVar $"WE" [IVar $"i"])])]) None]))])
         BNil])]);
       IFor $"m" (rn 1) (rv $"NI") (instrs [
        ISection ($"ni_subsection", [IVar $"m"]) ($"ni_subsection", [IVar $"m"]) (instrs [
         IIf (Branch (CAnd (CRel RGe (rv $"LB") (rn 0)) (CRel RLe (rv $"LB") (rn 4))) (Some (rn 1)) (instrs [
          IList (cspec None (Some 31) None) (fields r0 r0 (rv $"LT") (rv $"LB") (EMul (rn 2) (rv $"NP")) (rv $"NP")) (items [LLoop $"k" (rn 1) (ESub (rv $"NP") (rv $"LT")) (items [LExpr (EVar $"Ek" [IVar $"k"]); LExpr (EVar $"Fk" [IVar $"k"])]); LLoop $"k" (rn 1) (rv $"LT") (items [LExpr (EVar $"El" [IVar $"k"]); LExpr (EVar $"Fl" [IVar $"k"])])]) None]))
         (brs [(Branch (CAnd (CRel REq (rv $"LB") (rn 5)) (CRel REq (rv $"LS") (rn 0))) (Some (rn 1)) (instrs [
          IAbbrev $"NT" (EAdd (EMul (rv $"NE") (ESub (rv $"NE") (rn 1))) (rn 1));
          IList (cspec None (Some 31) None) (fields r0 r0 (rv $"LS") (rv $"LB") (rv $"NT") (rv $"NE")) (items [LLoop $"k" (rn 1) (rv $"NE") (items [LExpr (EVar $"E" [IVar $"k"])]); LLoop $"k" (rn 1) (ESub (rv $"NE") (rn 1)) (items [LLoop $"kp" (rn 1) (ESub (rv $"NE") (rn 1)) (items [LExpr (EVar $"F" [IVar $"k"; IVar $"kp"])])])]) None]));
         (Branch (CAnd (CRel REq (rv $"LB") (rn 5)) (CRel REq (rv $"LS") (rn 1))) (Some (rn 1)) (instrs [
          IAbbrev $"NT" (EDiv (EMul (rv $"NE") (EAdd (rv $"NE") (rn 1))) (rn 2));
          IList (cspec None (Some 31) None) (fields r0 r0 (rv $"LS") (rv $"LB") (rv $"NT") (rv $"NE")) (items [LLoop $"k" (rn 1) (rv $"NE") (items [LExpr (EVar $"E" [IVar $"k"])]); LLoop $"k" (rn 1) (ESub (rv $"NE") (rn 1)) (items [LLoop $"kp" (rv $"k") (ESub (rv $"NE") (rn 1)) (items [LExpr (EVar $"F" [IVar $"k"; IVar $"kp"])])])]) None]));
         (Branch (CRel REq (rv $"LB") (rn 6)) (Some (rn 1)) (instrs [
          IAbbrev $"NT" (EAdd (rn 1) (EMul (rv $"NER") (rv $"NEC")));
          IList (cspec None (Some 31) None) (fields r0 r0 (rn 0) (rv $"LB") (rv $"NT") (rv $"NER")) (items [LLoop $"k" (rn 1) (rv $"NER") (items [LExpr (EVar $"ER" [IVar $"k"])]); LLoop $"k" (rn 1) (rv $"NEC") (items [LExpr (EVar $"EC" [IVar $"k"])]); LLoop $"k" (rn 1) (ESub (rv $"NER") (rn 1)) (items [LLoop $"l" (rn 1) (ESub (rv $"NEC") (rn 1)) (items [LExpr (EVar $"F" [IVar $"k"; IVar $"l"])])])]) None]));
         (Branch (CAnd (COr (CRel REq (rv $"LB") (rn 8)) (CRel REq (rv $"LB") (rn 9))) (CRel REq (rv $"LT") (rn 0))) (Some (rn 1)) (instrs [
          IList (cspec None (Some 31) None) (fields r0 r0 (rv $"LT") (rv $"LB") (EMul (rn 2) (rv $"NP")) (rv $"NP")) (items [LLoop $"k" (rn 1) (rv $"NP") (items [LExpr (EVar $"E" [IVar $"k"]); LExpr (EVar $"F" [IVar $"k"])])]) None]))])
         BNil])])])])]))
    (brs [])
    BNil]).

(** endf_recipes/endf6/endf_recipe_mf32.py 12-172: ENDF_RECIPE_MF32, without the SEND at the end *)
Definition mf32 : block :=
  (instrs [
    ICont true (cspec None (Some 32) (Some 151)) (fields (rv $"ZA") (rv $"AWR") (rn 0) (rn 0) (rv $"NIS") (rn 0));
    IFor $"i" (rn 1) (rv $"NIS") (instrs [
     ISection ($"isotope", [IVar $"i"]) ($"isotope", [IVar $"i"]) (instrs [
      ICont false (cspec None (Some 32) (Some 151)) (fields (rv $"ZAI") (rv $"ABN") (rn 0) (rv $"LFW") (rv $"NER") (rn 0));
      IFor $"j" (rn 1) (rv $"NER") (instrs [
       ISection ($"range", [IVar $"j"]) ($"range", [IVar $"j"]) (instrs [
        ICont false (cspec None (Some 32) (Some 151)) (fields (rv $"EL") (rv $"EH") (rv $"LRU") (rv $"LRF") (rv $"NRO") (rv $"NAPS"));
        IIf (Branch (CRel RNe (rv $"NRO") (rn 0)) None (instrs [
         ICont false (cspec None (Some 32) (Some 151)) (fields r0 r0 (rn 0) (rn 0) (rn 0) (rv $"NI"));
         IStop]))
        (brs [])
        BNil;
        IIf (Branch (CAnd (CAnd (CRel REq (rv $"LCOMP") (rn 0)) (CRel REq (rv $"LRU") (rn 1))) (COr (CRel REq (rv $"LRF") (rn 1)) (CRel REq (rv $"LRF") (rn 2)))) (Some (rn 1)) (instrs [
         ICont false (cspec None (Some 32) (Some 151)) (fields (rv $"SPI") (rv $"AP") (rn 0) (rv $"LCOMP") (rv $"NLS") (rv $"ISR"));
         IIf (Branch (CRel RNe (rv $"ISR") (rn 0)) None (instrs [
          ICont false (cspec None (Some 32) (Some 151)) (fields r0 (rv $"DAP") (rn 0) (rn 0) (rn 0) (rn 0))]))
         (brs [])
         BNil;
         IFor $"k" (rn 1) (rv $"NLS") (instrs [
          ISection ($"somesec", [IVar $"k"]) ($"somesec", [IVar $"k"]) (instrs [
           IList (cspec None (Some 32) (Some 151)) (fields (rv $"AWRI") r0 (rv $"L") (rn 0) (EMul (rn 18) (rv $"NRS")) (rv $"NRS")) (items [LLoop $"m" (rn 1) (rv $"NRS") (items [LExpr (EVar $"ER" [IVar $"m"]); LExpr (EVar $"AJ" [IVar $"m"]); LExpr (EVar $"GT" [IVar $"m"]); LExpr (EVar $"GN" [IVar $"m"]); LExpr (EVar $"GG" [IVar $"m"]); LExpr (EVar $"GF" [IVar $"m"]); LExpr (EVar $"DE2" [IVar $"m"]); LExpr (EVar $"DN2" [IVar $"m"]); LExpr (EVar $"DNDG" [IVar $"m"]); LExpr (EVar $"DG2" [IVar $"m"]); LExpr (EVar $"DNDF" [IVar $"m"]); LExpr (EVar $"DGDF" [IVar $"m"]); LExpr (EVar $"DF2" [IVar $"m"]); LExpr (EVar $"DJDN" [IVar $"m"]); LExpr (EVar $"DJDG" [IVar $"m"]); LExpr (EVar $"DJDF" [IVar $"m"]); LExpr (EVar $"DJ2" [IVar $"m"]); LExpr r0])]) None])])]))
        (brs [(Branch (CAnd (CAnd (CRel REq (rv $"LCOMP") (rn 1)) (CRel REq (rv $"LRU") (rn 1))) (COr (CRel REq (rv $"LRF") (rn 1)) (CRel REq (rv $"LRF") (rn 2)))) (Some (rn 1)) (instrs [
         ICont false (cspec None (Some 32) (Some 151)) (fields (rv $"SPI") (rv $"AP") (rn 0) (rv $"LCOMP") (rv $"NLS") (rv $"ISR"));
         IIf (Branch (CRel RGt (rv $"ISR") (rn 0)) None (instrs [
          ICont false (cspec None (Some 32) (Some 151)) (fields r0 (rv $"DAP") (rn 0) (rn 0) (rn 0) (rn 0))]))
         (brs [])
         BNil;
         ICont false (cspec None (Some 32) (Some 151)) (fields (rv $"AWRI") r0 (rn 0) (rn 0) (rv $"NSRS") (rv $"NLRS"));
         IFor $"p" (rn 1) (rv $"NSRS") (instrs [
          ISection ($"nsrs_subsec", [IVar $"p"]) ($"nsrs_subsec", [IVar $"p"]) (instrs [
           IList (cspec None (Some 32) (Some 151)) (fields r0 r0 (rv $"MPAR") (rn 0) (EAdd (EMul (rn 6) (rv $"NRB")) (EDiv (EMul (EMul (rv $"MPAR") (rv $"NRB")) (EAdd (EMul (rv $"MPAR") (rv $"NRB")) (rn 1))) (rn 2))) (rv $"NRB")) (items [LLoop $"k" (rn 1) (rv $"NRB") (items [LExpr (EVar $"ER" [IVar $"k"]); LExpr (EVar $"AJ" [IVar $"k"]); LExpr (EVar $"GT" [IVar $"k"]); LExpr (EVar $"GN" [IVar $"k"]); LExpr (EVar $"GG" [IVar $"k"]); LExpr (EVar $"GF" [IVar $"k"])]); LLoop $"m" (rn 1) (EMul (rv $"MPAR") (rv $"NRB")) (items [LLoop $"n" (rv $"m") (EMul (rv $"MPAR") (rv $"NRB")) (items [LExpr (EVar $"V" [IVar $"m"; IVar $"n"])])])]) None])])]));
        (Branch (CAnd (CAnd (CRel REq (rv $"LCOMP") (rn 1)) (CRel REq (rv $"LRU") (rn 1))) (CRel REq (rv $"LRF") (rn 3))) (Some (rn 1)) (instrs [
         ICont false (cspec None (Some 32) (Some 151)) (fields (rv $"SPI") (rv $"AP") (rn 0) (rv $"LCOMP") (rv $"NLS") (rv $"ISR"));
         IIf (Branch (CRel RGt (rv $"ISR") (rn 0)) None (instrs [
          IList (cspec None (Some 32) (Some 151)) (fields r0 r0 (rn 0) (rn 0) (rv $"MLS") (rn 1)) (items [LLoop $"k" (rn 1) (rv $"MLS") (items [LExpr (EVar $"DAP" [IVar $"k"])])]) None]))
         (brs [])
         BNil;
         ICont false (cspec None (Some 32) (Some 151)) (fields (rv $"AWRI") r0 (rn 0) (rn 0) (rv $"NSRS") (rv $"NLRS"));
         IFor $"p" (rn 1) (rv $"NSRS") (instrs [
          ISection ($"nsrs_subsec", [IVar $"p"]) ($"nsrs_subsec", [IVar $"p"]) (instrs [
           IList (cspec None (Some 32) (Some 151)) (fields r0 r0 (rv $"MPAR") (rn 0) (EAdd (EMul (rn 6) (rv $"NRB")) (EDiv (EMul (EMul (rv $"MPAR") (rv $"NRB")) (EAdd (EMul (rv $"MPAR") (rv $"NRB")) (rn 1))) (rn 2))) (rv $"NRB")) (items [LLoop $"k" (rn 1) (rv $"NRB") (items [LExpr (EVar $"ER" [IVar $"k"]); LExpr (EVar $"AJ" [IVar $"k"]); LExpr (EVar $"GN" [IVar $"k"]); LExpr (EVar $"GG" [IVar $"k"]); LExpr (EVar $"GFA" [IVar $"k"]); LExpr (EVar $"GFB" [IVar $"k"])]); LLoop $"m" (rn 1) (EMul (rv $"MPAR") (rv $"NRB")) (items [LLoop $"n" (rv $"m") (EMul (rv $"MPAR") (rv $"NRB")) (items [LExpr (EVar $"V" [IVar $"m"; IVar $"n"])])])]) None])])]));
        (Branch (CAnd (CAnd (CRel REq (rv $"LCOMP") (rn 1)) (CRel REq (rv $"LRU") (rn 1))) (CRel REq (rv $"LRF") (rn 7))) (Some (rn 1)) (instrs [
         ICont false (cspec None (Some 32) (Some 151)) (fields r0 r0 (rn 0) (rv $"LCOMP") (rn 0) (rv $"ISR"));
         IIf (Branch (CRel RGt (rv $"ISR") (rn 0)) None (instrs [
          IList (cspec None (Some 32) (Some 151)) (fields r0 r0 (rn 0) (rn 0) (rv $"JCH") (EAdd (rn 1) (EDiv (ESub (rv $"NCH") (rn 1)) (rn 6)))) (items [LLoop $"m" (rn 1) (EDiv (rv $"JCH") (rv $"NCH")) (items [LLoop $"n" (rn 1) (rv $"NCH") (items [LExpr (EVar $"DAP" [IVar $"m"; IVar $"n"])])])]) None]))
         (brs [])
         BNil;
         ICont false (cspec None (Some 32) (Some 151)) (fields (rv $"AWRI") r0 (rn 0) (rn 0) (rv $"NSRS") (rn 0));
         IFor $"k" (rn 1) (rv $"NSRS") (instrs [
          ISection ($"nsrs_subsec", [IVar $"k"]) ($"nsrs_subsec", [IVar $"k"]) (instrs [
           ICont false (cspec None (Some 32) (Some 151)) (fields r0 r0 (rv $"NJSX") (rn 0) (rn 0) (rn 0));
           IFor $"m" (rn 1) (rv $"NJSX") (instrs [
            ISection ($"J_pi_group", [IVar $"m"]) ($"J_pi_group", [IVar $"m"]) (instrs [
             IAbbrev $"NX" (EDiv (EMul (EAdd (EAdd (rn 1) (rv $"NCH")) (EMod (ESub (rn 5) (rv $"NCH")) (rn 6))) (rv $"NRB")) (rn 6));
             IAbbrev $"num_zeros" (EMod (ESub (rn 5) (rv $"NCH")) (rn 6));
             IList (cspec None (Some 32) (Some 151)) (fields r0 r0 (rv $"NCH") (rv $"NRB") (EMul (rn 6) (rv $"NX")) (rv $"NX")) (items [LLoop $"p" (rn 1) (rv $"NRB") (items [LExpr (EVar $"ER" [IVar $"p"]); LLoop $"q" (rn 1) (rv $"NCH") (items [LExpr (EVar $"GAM" [IVar $"q"; IVar $"p"])]); LLoop $"r" (rn 1) (rv $"num_zeros") (items [LExpr r0])])]) None])]);
           IList (cspec None (Some 32) (Some 151)) (fields r0 r0 (rn 0) (rn 0) (rv $"N") (rv $"NPARB")) (items [LLoop $"p" (rn 1) (rv $"NPARB") (items [LLoop $"q" (rv $"p") (rv $"NPARB") (items [LExpr (EVar $"V" [IVar $"p"; IVar $"q"])])])]) None])])]));
        (Branch (CAnd (CAnd (CRel REq (rv $"LCOMP") (rn 2)) (CRel REq (rv $"LRU") (rn 1))) (COr (CRel REq (rv $"LRF") (rn 1)) (CRel REq (rv $"LRF") (rn 2)))) (Some (rn 1)) (instrs [
         ICont false (cspec None (Some 32) (Some 151)) (fields (rv $"SPI") (rv $"AP") (rn 0) (rv $"LCOMP") (rn 0) (rv $"ISR"));
         IIf (Branch (CRel RGt (rv $"ISR") (rn 0)) None (instrs [
          ICont false (cspec None (Some 32) (Some 151)) (fields r0 (rv $"DAP") (rn 0) (rn 0) (rn 0) (rn 0))]))
         (brs [])
         BNil;
         IList (cspec None (Some 32) (Some 151)) (fields (rv $"AWRI") (rv $"QX") (rn 0) (rv $"LRX") (EMul (rn 12) (rv $"NRSA")) (rv $"NRSA")) (items [LLoop $"k" (rn 1) (rv $"NRSA") (items [LExpr (EVar $"ER" [IVar $"k"]); LExpr (EVar $"AJ" [IVar $"k"]); LExpr (EVar $"GT" [IVar $"k"]); LExpr (EVar $"GN" [IVar $"k"]); LExpr (EVar $"GG" [IVar $"k"]); LExpr (EVar $"GF" [IVar $"k"]); LExpr (EVar $"DER" [IVar $"k"]); LExpr r0; LExpr r0; LExpr (EVar $"DGN" [IVar $"k"]); LExpr (EVar $"DGG" [IVar $"k"]); LExpr (EVar $"DGF" [IVar $"k"])])]) None;
         ICont false (cspec None (Some 32) (Some 151)) (fields r0 r0 (rv $"NDIGIT") (rv $"NNN") (rv $"NM") (rn 0));
         IFor $"k" (rn 1) (rv $"NM") (instrs [
          IIntg (cspec None (Some 32) (Some 151)) (EVar $"II" [IVar $"k"]) (EVar $"JJ" [IVar $"k"]) (EVar $"KIJ" [IVar $"k"]) (rv $"NDIGIT")])]));
        (Branch (CAnd (CAnd (CRel REq (rv $"LCOMP") (rn 2)) (CRel REq (rv $"LRU") (rn 1))) (CRel REq (rv $"LRF") (rn 3))) (Some (rn 1)) (instrs [
         ICont false (cspec None (Some 32) (Some 151)) (fields (rv $"SPI") (rv $"AP") (rv $"LAD") (rv $"LCOMP") (rn 0) (rv $"ISR"));
         IIf (Branch (CRel RGt (rv $"ISR") (rn 0)) None (instrs [
          IList (cspec None (Some 32) (Some 151)) (fields r0 r0 (rn 0) (rn 0) (rv $"MLS") (rn 1)) (items [LLoop $"k" (rn 1) (rv $"MLS") (items [LExpr (EVar $"DAP" [IVar $"k"])])]) None]))
         (brs [])
         BNil;
         IList (cspec None (Some 32) (Some 151)) (fields (rv $"AWRI") (rv $"APL") (rn 0) (rn 0) (EMul (rn 12) (rv $"NRSA")) (rv $"NRSA")) (items [LLoop $"k" (rn 1) (rv $"NRSA") (items [LExpr (EVar $"ER" [IVar $"k"]); LExpr (EVar $"AJ" [IVar $"k"]); LExpr (EVar $"GN" [IVar $"k"]); LExpr (EVar $"GG" [IVar $"k"]); LExpr (EVar $"GFA" [IVar $"k"]); LExpr (EVar $"GFB" [IVar $"k"]); LExpr (EVar $"DER" [IVar $"k"]); LExpr r0; LExpr (EVar $"DGN" [IVar $"k"]); LExpr (EVar $"DGG" [IVar $"k"]); LExpr (EVar $"DGFA" [IVar $"k"]); LExpr (EVar $"DGFB" [IVar $"k"])])]) None;
         ICont false (cspec None (Some 32) (Some 151)) (fields r0 r0 (rv $"NDIGIT") (rv $"NNN") (rv $"NM") (rn 0));
         IFor $"k" (rn 1) (rv $"NM") (instrs [
          IIntg (cspec None (Some 32) (Some 151)) (EVar $"II" [IVar $"k"]) (EVar $"JJ" [IVar $"k"]) (EVar $"KIJ" [IVar $"k"]) (rv $"NDIGIT")])]));
        (Branch (CAnd (CAnd (CRel REq (rv $"LCOMP") (rn 2)) (CRel REq (rv $"LRU") (rn 1))) (CRel REq (rv $"LRF") (rn 7))) (Some (rn 1)) (instrs [
         ICont false (cspec None (Some 32) (Some 151)) (fields r0 r0 (rv $"IFG") (rv $"LCOMP") (rv $"NJS") (rv $"ISR"));
         IIf (Branch (CRel RGt (rv $"ISR") (rn 0)) None (instrs [
          IList (cspec None (Some 32) (Some 151)) (fields r0 r0 (rn 0) (rn 0) (rv $"NJCH") (EAdd (rn 1) (EDiv (ESub (rv $"NJCH") (rn 1)) (rn 6)))) (items [LLoop $"m" (rn 1) (EDiv (rv $"NJCH") (rv $"NJS")) (items [LLoop $"n" (rn 1) (EDiv (rv $"NJCH") (rv $"NJS")) (items [LExpr (EVar $"DAP" [IVar $"m"; IVar $"n"])])])]) None]))
         (brs [])
         BNil;
         IList (cspec None (Some 32) (Some 151)) (fields r0 r0 (rv $"NPP") (rv $"NJSX") (EMul (rn 12) (rv $"NPP")) (EMul (rn 2) (rv $"NPP"))) (items [LLoop $"k" (rn 1) (rv $"NPP") (items [LExpr (EVar $"MA" [IVar $"k"]); LExpr (EVar $"MB" [IVar $"k"]); LExpr (EVar $"ZA" [IVar $"k"]); LExpr (EVar $"ZB" [IVar $"k"]); LExpr (EVar $"IA" [IVar $"k"]); LExpr (EVar $"IB" [IVar $"k"]); LExpr (EVar $"Q" [IVar $"k"]); LExpr (EVar $"PNT" [IVar $"k"]); LExpr (EVar $"SHF" [IVar $"k"]); LExpr (EVar $"MT" [IVar $"k"]); LExpr (EVar $"PA" [IVar $"k"]); LExpr (EVar $"PB" [IVar $"k"])])]) None;
         IFor $"q" (rn 1) (rv $"NJS") (instrs [
          ISection ($"somesec", [IVar $"q"]) ($"somesec", [IVar $"q"]) (instrs [
           IList (cspec None (Some 32) (Some 151)) (fields (rv $"AJ") (rv $"PJ") (rn 0) (rn 0) (EMul (rn 6) (rv $"NCH")) (rv $"NCH")) (items [LLoop $"k" (rn 1) (rv $"NCH") (items [LExpr (EVar $"PPI" [IVar $"k"]); LExpr (EVar $"L" [IVar $"k"]); LExpr (EVar $"SCH" [IVar $"k"]); LExpr (EVar $"BND" [IVar $"k"]); LExpr (EVar $"APE" [IVar $"k"]); LExpr (EVar $"APT" [IVar $"k"])])]) None;
           IAbbrev $"NX" (EDiv (EMul (EAdd (EMul (rn 2) (EAdd (rv $"NCH") (rn 1))) (EMul (rn 2) (EMod (ESub (rn 5) (rv $"NCH")) (rn 6)))) (rv $"NRSA")) (rn 12));
           IAbbrev $"num_zeros" (EMod (ESub (rn 5) (rv $"NCH")) (rn 6));
           IList (cspec None (Some 32) (Some 151)) (fields r0 r0 (rn 0) (rv $"NRSA") (EMul (rn 12) (rv $"NX")) (EIncons $"NX" [])) (items [LLoop $"k" (rn 1) (rv $"NRSA") (items [LExpr (EVar $"ER" [IVar $"k"]); LLoop $"p" (rn 1) (rv $"NCH") (items [LExpr (EVar $"GAM" [IVar $"p"; IVar $"k"])]); LLoop $"r" (rn 1) (rv $"num_zeros") (items [LExpr r0]); LExpr (EVar $"DER" [IVar $"k"]); LLoop $"p" (rn 1) (rv $"NCH") (items [LExpr (EVar $"DGAM" [IVar $"p"; IVar $"k"])]); LLoop $"r" (rn 1) (rv $"num_zeros") (items [LExpr r0])])]) None])]);
         ICont false (cspec None (Some 32) (Some 151)) (fields r0 r0 (rv $"NDIGIT") (rv $"NNN") (rv $"NM") (rn 0));
         IFor $"q" (rn 1) (rv $"NM") (instrs [
          IIntg (cspec None (Some 32) (Some 151)) (EVar $"II" [IVar $"q"]) (EVar $"JJ" [IVar $"q"]) (EVar $"KIJ" [IVar $"q"]) (rv $"NDIGIT")])]));
        (Branch (CRel REq (rv $"LRU") (rn 2)) None (instrs [
         ICont false (cspec None (Some 32) (Some 151)) (fields (rv $"SPI") (rv $"AP") (rn 0) (rn 0) (rv $"NLS") (rn 0));
         IFor $"q" (rn 1) (rv $"NLS") (instrs [
          ISection ($"l_group", [IVar $"q"]) ($"l_group", [IVar $"q"]) (instrs [
           IList (cspec None (Some 32) (Some 151)) (fields (rv $"AWRI") r0 (rv $"L") (rn 0) (EMul (rn 6) (rv $"NJS")) (rv $"NJS")) (items [LLoop $"k" (rn 1) (rv $"NJS") (items [LExpr (EVar $"D" [IVar $"k"]); LExpr (EVar $"AJ" [IVar $"k"]); LExpr (EVar $"GNO" [IVar $"k"]); LExpr (EVar $"GG" [IVar $"k"]); LExpr (EVar $"GF" [IVar $"k"]); LExpr (EVar $"GX" [IVar $"k"])])]) None])]);
         IList (cspec None (Some 32) (Some 151)) (fields r0 r0 (rv $"MPAR") (rn 0) (EDiv (EMul (rv $"NPAR") (EAdd (rv $"NPAR") (rn 1))) (rn 2)) (rv $"NPAR")) (items [LLoop $"p" (rn 1) (rv $"NPAR") (items [LLoop $"q" (rv $"p") (rv $"NPAR") (items [LExpr (EVar $"RV" [IVar $"p"; IVar $"q"])])])]) None]))])
        BNil])])])])]).

(** endf_recipes/endf6/endf_recipe_mf33.py 12-75: ENDF_RECIPE_MF33, without the SEND at the end *)
Definition mf33 : block :=
  (instrs [
    ICont true (cspec None (Some 33) None) (fields (rv $"ZA") (rv $"AWR") (rn 0) (rv $"MTL") (rn 0) (rv $"NL"));
    IIf (Branch (CRel REq (rv $"MTL") (rn 0)) None (instrs [
     IFor $"n" (rn 1) (rv $"NL") (instrs [
      ISection ($"subsection", [IVar $"n"]) ($"subsection", [IVar $"n"]) (instrs [
       ICont false (cspec None (Some 33) None) (fields (rv $"XMF1") (rv $"XLFS1") (rv $"MAT1") (rv $"MT1") (rv $"NC") (rv $"NI"));
       IFor $"m" (rn 1) (rv $"NC") (instrs [
        ISection ($"nc_subsection", [IVar $"m"]) ($"nc_subsection", [IVar $"m"]) (instrs [
         ICont false (cspec None (Some 33) None) (fields r0 r0 (rn 0) (rv $"LTY") (rn 0) (rn 0));
         IIf (Branch (CRel REq (rv $"LTY") (rn 0)) None (instrs [
          IList (cspec None (Some 33) None) (fields (rv $"E1") (rv $"E2") (rn 0) (rn 0) (EMul (rn 2) (rv $"NCI")) (rv $"NCI")) (items [LLoop $"i" (rn 1) (rv $"NCI") (items [LExpr (EVar $"C" [IVar $"i"]); LExpr (EVar $"XMT" [IVar $"i"])])]) None]))
         (brs [(Branch (CAnd (CRel RGe (rv $"LTY") (rn 1)) (CRel RLe (rv $"LTY") (rn 3))) None (instrs [
          IList (cspec None (Some 33) None) (fields (rv $"E1") (rv $"E2") (rv $"MATS") (rv $"MTS") (EAdd (EMul (rn 2) (rv $"NEI")) (rn 2)) (rv $"NEI")) (items [LExpr (rv $"XMFS"); LExpr (rv $"XLFSS"); LLoop $"i" (rn 1) (rv $"NEI") (items [LExpr (EVar $"E" [IVar $"i"]); LExpr (EVar $"WE" [IVar $"i"])])]) None]))])
         BNil])]);
       IFor $"m" (rn 1) (rv $"NI") (instrs [
        ISection ($"ni_subsection", [IVar $"m"]) ($"ni_subsection", [IVar $"m"]) (instrs [
         IIf (Branch (CAnd (CRel RGe (rv $"LB") (rn 0)) (CRel RLe (rv $"LB") (rn 4))) (Some (rn 1)) (instrs [
          IList (cspec None (Some 33) None) (fields r0 r0 (rv $"LT") (rv $"LB") (EMul (rn 2) (rv $"NP")) (rv $"NP")) (items [LLoop $"k" (rn 1) (ESub (rv $"NP") (rv $"LT")) (items [LExpr (EVar $"Ek" [IVar $"k"]); LExpr (EVar $"Fk" [IVar $"k"])]); LLoop $"k" (rn 1) (rv $"LT") (items [LExpr (EVar $"El" [IVar $"k"]); LExpr (EVar $"Fl" [IVar $"k"])])]) None]))
         (brs [(Branch (CAnd (CRel REq (rv $"LB") (rn 5)) (CRel REq (rv $"LS") (rn 0))) (Some (rn 1)) (instrs [
          IAbbrev $"NT" (EAdd (EMul (rv $"NE") (ESub (rv $"NE") (rn 1))) (rn 1));
          IList (cspec None (Some 33) None) (fields r0 r0 (rv $"LS") (rv $"LB") (rv $"NT") (rv $"NE")) (items [LLoop $"k" (rn 1) (rv $"NE") (items [LExpr (EVar $"E" [IVar $"k"])]); LLoop $"k" (rn 1) (ESub (rv $"NE") (rn 1)) (items [LLoop $"kp" (rn 1) (ESub (rv $"NE") (rn 1)) (items [LExpr (EVar $"F" [IVar $"k"; IVar $"kp"])])])]) None]));
         (Branch (CAnd (CRel REq (rv $"LB") (rn 5)) (CRel REq (rv $"LS") (rn 1))) (Some (rn 1)) (instrs [
          IAbbrev $"NT" (EDiv (EMul (rv $"NE") (EAdd (rv $"NE") (rn 1))) (rn 2));
          IList (cspec None (Some 33) None) (fields r0 r0 (rv $"LS") (rv $"LB") (rv $"NT") (rv $"NE")) (items [LLoop $"k" (rn 1) (rv $"NE") (items [LExpr (EVar $"E" [IVar $"k"])]); LLoop $"k" (rn 1) (ESub (rv $"NE") (rn 1)) (items [LLoop $"kp" (rv $"k") (ESub (rv $"NE") (rn 1)) (items [LExpr (EVar $"F" [IVar $"k"; IVar $"kp"])])])]) None]));
         (Branch (CRel REq (rv $"LB") (rn 6)) (Some (rn 1)) (instrs [
          IAbbrev $"NT" (EAdd (rn 1) (EMul (rv $"NER") (rv $"NEC")));
          IList (cspec None (Some 33) None) (fields r0 r0 (rn 0) (rv $"LB") (rv $"NT") (rv $"NER")) (items [LLoop $"k" (rn 1) (rv $"NER") (items [LExpr (EVar $"ER" [IVar $"k"])]); LLoop $"k" (rn 1) (rv $"NEC") (items [LExpr (EVar $"EC" [IVar $"k"])]); LLoop $"k" (rn 1) (ESub (rv $"NER") (rn 1)) (items [LLoop $"l" (rn 1) (ESub (rv $"NEC") (rn 1)) (items [LExpr (EVar $"F" [IVar $"k"; IVar $"l"])])])]) None]));
         (Branch (CAnd (COr (CRel REq (rv $"LB") (rn 8)) (CRel REq (rv $"LB") (rn 9))) (CRel REq (rv $"LT") (rn 0))) (Some (rn 1)) (instrs [
          IList (cspec None (Some 33) None) (fields r0 r0 (rv $"LT") (rv $"LB") (EMul (rn 2) (rv $"NP")) (rv $"NP")) (items [LLoop $"k" (rn 1) (rv $"NP") (items [LExpr (EVar $"E" [IVar $"k"]); LExpr (EVar $"F" [IVar $"k"])])]) None]))])
         BNil])])])])]))
    (brs [])
    BNil]).

(** endf_recipes/endf6/endf_recipe_mf34.py 12-46: ENDF_RECIPE_MF34, without the SEND at the end *)
Definition mf34 : block :=
  (instrs [
    ICont true (cspec None (Some 34) None) (fields (rv $"ZA") (rv $"AWR") (rn 0) (rv $"LTT") (rn 0) (rv $"NMT1"));
    IFor $"k" (rn 1) (rv $"NMT1") (instrs [
     ISection ($"subsection", [IVar $"k"]) ($"subsection", [IVar $"k"]) (instrs [
      IIf (Branch (COr (CRel REq (rv $"MT1") (rn 0)) (CRel REq (rv $"MT") (rv $"MT1"))) (Some (rn 1)) (instrs [
       ICont false (cspec None (Some 34) None) (fields r0 r0 (rv $"MAT1") (rv $"MT1") (rv $"NL") (rv $"NL"));
       IFor $"n" (rn 1) (EDiv (EMul (rv $"NL") (EAdd (rv $"NL") (rn 1))) (rn 2)) (instrs [
        IIf (Branch (CRel REq (rv $"n") (rn 1)) None (instrs [
         ICont false (cspec None (Some 34) None) (fields r0 r0 (EVar $"L" [IVar $"n"]) (EVar $"L1" [IVar $"n"]) (rv $"LCT") (EVar $"NI" [IVar $"n"]))]))
        (brs [])
        (instrs [
         ICont false (cspec None (Some 34) None) (fields r0 r0 (EVar $"L" [IVar $"n"]) (EVar $"L1" [IVar $"n"]) (rn 0) (EVar $"NI" [IVar $"n"]))]);
        IFor $"m" (rn 1) (EVar $"NI" [IVar $"n"]) (instrs [
         IList (cspec None (Some 34) None) (fields r0 r0 (EVar $"LS" [IVar $"n"; IVar $"m"]) (EVar $"LB" [IVar $"n"; IVar $"m"]) (EVar $"NT" [IVar $"n"; IVar $"m"]) (EVar $"NE" [IVar $"n"; IVar $"m"])) (items [LLoop $"q" (rn 1) (EVar $"NT" [IVar $"n"; IVar $"m"]) (items [LExpr (EVar $"Data" [IVar $"n"; IVar $"m"; IVar $"q"])])]) None])])]))
      (brs [])
      (instrs [
       ICont false (cspec None (Some 34) None) (fields r0 r0 (rv $"MAT1") (rv $"MT1") (rv $"NL") (rv $"NL1"));
       IFor $"n" (rn 1) (EMul (rv $"NL") (rv $"NL1")) (instrs [
        IIf (Branch (CRel REq (rv $"n") (rn 1)) None (instrs [
         ICont false (cspec None (Some 34) None) (fields r0 r0 (EVar $"L" [IVar $"n"]) (EVar $"L1" [IVar $"n"]) (rv $"LCT") (EVar $"NI" [IVar $"n"]))]))
        (brs [])
        (instrs [
         ICont false (cspec None (Some 34) None) (fields r0 r0 (EVar $"L" [IVar $"n"]) (EVar $"L1" [IVar $"n"]) (rn 0) (EVar $"NI" [IVar $"n"]))]);
        IFor $"m" (rn 1) (EVar $"NI" [IVar $"n"]) (instrs [
         IList (cspec None (Some 34) None) (fields r0 r0 (EVar $"LS" [IVar $"n"; IVar $"m"]) (EVar $"LB" [IVar $"n"; IVar $"m"]) (EVar $"NT" [IVar $"n"; IVar $"m"]) (EVar $"NE" [IVar $"n"; IVar $"m"])) (items [LLoop $"q" (rn 1) (EVar $"NT" [IVar $"n"; IVar $"m"]) (items [LExpr (EVar $"Data" [IVar $"n"; IVar $"m"; IVar $"q"])])]) None])])])])])]).

(** endf_recipes/endf6/endf_recipe_mf35.py 12-23: ENDF_RECIPE_MF35, without the SEND at the end *)
Definition mf35 : block :=
  (instrs [
    ICont true (cspec None (Some 35) None) (fields (rv $"ZA") (rv $"AWR") (rn 0) (rn 0) (rv $"NK") (rn 0));
    IFor $"k" (rn 1) (rv $"NK") (instrs [
     ISection ($"subsection", [IVar $"k"]) ($"subsection", [IVar $"k"]) (instrs [
      IIf (Branch (CAnd (CRel REq (rv $"LS") (rn 1)) (CRel REq (rv $"LB") (rn 7))) (Some (rn 1)) (instrs [
       IList (cspec None (Some 35) None) (fields (rv $"E1") (rv $"E2") (rv $"LS") (rv $"LB") (rv $"NT") (rv $"NE")) (items [LLoop $"i" (rn 1) (rv $"NE") (items [LExpr (EVar $"E" [IVar $"i"])]); LLoop $"i" (rn 1) (ESub (rv $"NE") (rn 1)) (items [LLoop $"j" (rv $"i") (ESub (rv $"NE") (rn 1)) (items [LExpr (EVar $"F" [IVar $"i"; IVar $"j"])])])]) None]))
      (brs [])
      BNil])])]).

(** endf_recipes/endf6/endf_recipe_mf4.py 12-53: ENDF_RECIPE_MF4, without the SEND at the end *)
Definition mf4 : block :=
  (instrs [
    ICont true (cspec None (Some 4) None) (fields (rv $"ZA") (rv $"AWR") (rn 0) (rv $"LTT") (rn 0) (rn 0));
    IIf (Branch (CAnd (CRel REq (rv $"LTT") (rn 3)) (CRel REq (rv $"LI") (rn 0))) (Some (rn 1)) (instrs [
     ICont false (cspec None (Some 4) None) (fields r0 (rv $"AWR") (rv $"LI") (rv $"LCT") (rn 0) (rv $"NM"))]))
    (brs [])
    (instrs [
     ICont false (cspec None (Some 4) None) (fields r0 (rv $"AWR") (rv $"LI") (rv $"LCT") (rn 0) (rn 0))]);
    IIf (Branch (CAnd (CRel REq (rv $"LTT") (rn 1)) (CRel REq (rv $"LI") (rn 0))) None (instrs [
     ITab2 (cspec None (Some 4) None) (fields r0 r0 (rn 0) (rn 0) (rv $"NR") (rv $"NE")) None;
     IFor $"i" (rn 1) (rv $"NE") (instrs [
      IList (cspec None (Some 4) None) (fields (rv $"T") (EVar $"E" [IVar $"i"]) (rv $"LT") (rn 0) (EVar $"NL" [IVar $"i"]) (rn 0)) (items [LLoop $"l" (rn 1) (EVar $"NL" [IVar $"i"]) (items [LExpr (EVar $"a" [IVar $"i"; IVar $"l"])])]) None])]))
    (brs [(Branch (CAnd (CRel REq (rv $"LTT") (rn 2)) (CRel REq (rv $"LI") (rn 0))) None (instrs [
     ITab2 (cspec None (Some 4) None) (fields r0 r0 (rn 0) (rn 0) (rv $"NR") (rv $"NE")) (Some ($"energy_table", []));
     IFor $"i" (rn 1) (rv $"NE") (instrs [
      ITab1 (cspec None (Some 4) None) (fields (rv $"T") (EVar $"E" [IVar $"i"]) (rv $"LT") (rn 0) (rv $"NR") (rv $"NP")) ($"mu", []) ($"f", []) (Some ($"angtable", [IVar $"i"]))])]));
    (Branch (CAnd (CRel REq (rv $"LTT") (rn 3)) (CRel REq (rv $"LI") (rn 0))) None (instrs [
     ITab2 (cspec None (Some 4) None) (fields r0 r0 (rn 0) (rn 0) (rv $"NR") (rv $"NE1")) (Some ($"leg_int", []));
     IFor $"i" (rn 1) (rv $"NE1") (instrs [
      IList (cspec None (Some 4) None) (fields (rv $"T") (EVar $"E" [IVar $"i"]) (rv $"LT") (rn 0) (EVar $"NL" [IVar $"i"]) (rn 0)) (items [LLoop $"j" (rn 1) (EVar $"NL" [IVar $"i"]) (items [LExpr (EVar $"al" [IVar $"i"; IVar $"j"])])]) None]);
     ITab2 (cspec None (Some 4) None) (fields r0 r0 (rn 0) (rn 0) (rv $"NR") (rv $"NE2")) (Some ($"ang_int", []));
     IFor $"i" (rv $"NE1") (ESub (EAdd (rv $"NE1") (rv $"NE2")) (rn 1)) (instrs [
      ITab1 (cspec None (Some 4) None) (fields (rv $"T") (EVar $"E" [IVar $"i"]) (rv $"LT") (rn 0) (rv $"NR") (rv $"NP")) ($"mu", []) ($"f", []) (Some ($"angtable", [IVar $"i"]))])]))])
    BNil]).

(** endf_recipes/endf6/endf_recipe_mf40.py 12-72: ENDF_RECIPE_MF40, without the SEND at the end *)
Definition mf40 : block :=
  (instrs [
    ICont true (cspec None (Some 40) None) (fields (rv $"ZA") (rv $"AWR") (rv $"LIS") (rn 0) (rv $"NS") (rn 0));
    IFor $"k" (rn 1) (rv $"NS") (instrs [
     ISection ($"subsection", [IVar $"k"]) ($"subsection", [IVar $"k"]) (instrs [
      ICont false (cspec None (Some 40) None) (fields (rv $"QM") (rv $"QI") (rv $"IZAP") (rv $"LFS") (rn 0) (rv $"NL"));
      IFor $"i" (rn 1) (rv $"NL") (instrs [
       ISection ($"subsubsec", [IVar $"i"]) ($"subsubsec", [IVar $"i"]) (instrs [
        ICont false (cspec None (Some 40) None) (fields (rv $"XMF1") (rv $"XLFS1") (rv $"MAT1") (rv $"MT1") (rv $"NC") (rv $"NI"));
        IFor $"j" (rn 1) (rv $"NC") (instrs [
         ISection ($"nc_subsubsubsec", [IVar $"j"]) ($"nc_subsubsubsec", [IVar $"j"]) (instrs [
          IIf (Branch (CRel REq (rv $"LTY") (rn 0)) (Some (rn 1)) (instrs [
           ICont false (cspec None (Some 40) None) (fields r0 r0 (rn 0) (rv $"LTY") (rn 0) (rn 0));
           IList (cspec None (Some 40) None) (fields (rv $"E1") (rv $"E2") (rn 0) (rn 0) (EMul (rn 2) (rv $"NCI")) (rv $"NCI")) (items [LLoop $"i" (rn 1) (rv $"NCI") (items [LExpr (EVar $"C" [IVar $"i"]); LExpr (EVar $"XMT" [IVar $"i"])])]) None]))
          (brs [(Branch (COr (COr (CRel REq (rv $"LTY") (rn 1)) (CRel REq (rv $"LTY") (rn 2))) (CRel REq (rv $"LTY") (rn 3))) (Some (rn 1)) (instrs [
           ICont false (cspec None (Some 40) None) (fields r0 r0 (rn 0) (rv $"LTY") (rn 0) (rn 0));
           IList (cspec None (Some 40) None) (fields (rv $"E1") (rv $"E2") (rv $"MATS") (rv $"MTS") (EAdd (EMul (rn 2) (rv $"NEI")) (rn 2)) (rv $"NEI")) (items [LExpr (rv $"XMFS"); LExpr (rv $"XLFSS"); LLoop $"i" (rn 1) (rv $"NEI") (items [LExpr (EVar $"E" [IVar $"i"]); LExpr (EVar $"WE" [IVar $"i"])])]) None]))])
          BNil])]);
        IFor $"j" (rn 1) (rv $"NI") (instrs [
         ISection ($"ni_subsubsubsec", [IVar $"j"]) ($"ni_subsubsubsec", [IVar $"j"]) (instrs [
          IIf (Branch (CAnd (CRel RGe (rv $"LB") (rn 0)) (CRel RLe (rv $"LB") (rn 4))) (Some (rn 1)) (instrs [
           IList (cspec None (Some 40) None) (fields r0 r0 (rv $"LT") (rv $"LB") (EMul (rn 2) (rv $"NP")) (rv $"NP")) (items [LLoop $"q" (rn 1) (ESub (rv $"NP") (rv $"LT")) (items [LExpr (EVar $"Ek" [IVar $"q"]); LExpr (EVar $"Fk" [IVar $"q"])]); LLoop $"q" (rn 1) (rv $"LT") (items [LExpr (EVar $"El" [IVar $"q"]); LExpr (EVar $"Fl" [IVar $"q"])])]) None]))
          (brs [(Branch (CAnd (CRel REq (rv $"LB") (rn 5)) (CRel REq (rv $"LS") (rn 0))) (Some (rn 1)) (instrs [
           IList (cspec None (Some 40) None) (fields r0 r0 (rv $"LS") (rv $"LB") (rv $"NT") (rv $"NE")) (items [LLoop $"q" (rn 1) (rv $"NE") (items [LExpr (EVar $"E" [IVar $"q"])]); LLoop $"q" (rn 1) (ESub (rv $"NE") (rn 1)) (items [LLoop $"qp" (rn 1) (ESub (rv $"NE") (rn 1)) (items [LExpr (EVar $"F" [IVar $"q"; IVar $"qp"])])])]) None]));
          (Branch (CAnd (CRel REq (rv $"LB") (rn 5)) (CRel REq (rv $"LS") (rn 1))) (Some (rn 1)) (instrs [
           IList (cspec None (Some 40) None) (fields r0 r0 (rv $"LS") (rv $"LB") (rv $"NT") (rv $"NE")) (items [LLoop $"q" (rn 1) (rv $"NE") (items [LExpr (EVar $"E" [IVar $"q"])]); LLoop $"q" (rn 1) (ESub (rv $"NE") (rn 1)) (items [LLoop $"qp" (rv $"q") (ESub (rv $"NE") (rn 1)) (items [LExpr (EVar $"F" [IVar $"q"; IVar $"qp"])])])]) None]));
          (Branch (CRel REq (rv $"LB") (rn 6)) (Some (rn 1)) (instrs [
           IList (cspec None (Some 40) None) (fields r0 r0 (rn 0) (rv $"LB") (rv $"NT") (rv $"NER")) (items [LLoop $"q" (rn 1) (rv $"NER") (items [LExpr (EVar $"ER" [IVar $"q"])]); LLoop $"q" (rn 1) (EDiv (ESub (rv $"NT") (rn 1)) (rv $"NER")) (items [LExpr (EVar $"EC" [IVar $"q"])]); LLoop $"q" (rn 1) (ESub (rv $"NER") (rn 1)) (items [LLoop $"l" (rn 1) (ESub (EDiv (ESub (rv $"NT") (rn 1)) (rv $"NER")) (rn 1)) (items [LExpr (EVar $"F" [IVar $"q"; IVar $"l"])])])]) None]));
          (Branch (CAnd (COr (CRel REq (rv $"LB") (rn 8)) (CRel REq (rv $"LB") (rn 9))) (CRel REq (rv $"LT") (rn 0))) (Some (rn 1)) (instrs [
           IList (cspec None (Some 40) None) (fields r0 r0 (rv $"LT") (rv $"LB") (EMul (rn 2) (rv $"NP")) (rv $"NP")) (items [LLoop $"q" (rn 1) (rv $"NP") (items [LExpr (EVar $"E" [IVar $"q"]); LExpr (EVar $"F" [IVar $"q"])])]) None]))])
          BNil])])])])])])]).

(** endf_recipes/endf6/endf_recipe_mf5.py 12-56: ENDF_RECIPE_MF5, without the SEND at the end *)
Definition mf5 : block :=
  (instrs [
    ICont true (cspec None (Some 5) None) (fields (rv $"ZA") (rv $"AWR") (rn 0) (rn 0) (rv $"NK") (rn 0));
    IFor $"k" (rn 1) (rv $"NK") (instrs [
     ISection ($"contribution", [IVar $"k"]) ($"contribution", [IVar $"k"]) (instrs [
      IIf (Branch (CRel REq (rv $"LF") (rn 1)) (Some (rn 1)) (instrs [
       ITab1 (cspec None (Some 5) None) (fields r0 r0 (rn 0) (rv $"LF") (rv $"NR") (rv $"NP")) ($"E", []) ($"p", []) (Some ($"p_table", []));
       ITab2 (cspec None (Some 5) None) (fields r0 r0 (rn 0) (rn 0) (rv $"NR") (rv $"NE")) (Some ($"E_interp", []));
       IFor $"l" (rn 1) (rv $"NE") (instrs [
        ITab1 (cspec None (Some 5) None) (fields r0 (EVar $"E" [IVar $"l"]) (rn 0) (rn 0) (rv $"NR") (rv $"NF")) ($"Eout", []) ($"g", []) (Some ($"spectrum", [IVar $"l"]))])]))
      (brs [(Branch (CRel REq (rv $"LF") (rn 5)) (Some (rn 1)) (instrs [
       ITab1 (cspec None (Some 5) None) (fields (rv $"U") r0 (rn 0) (rv $"LF") (rv $"NR") (rv $"NP")) ($"E", []) ($"p", []) (Some ($"p_table", []));
       ITab1 (cspec None (Some 5) None) (fields r0 r0 (rn 0) (rn 0) (rv $"NR") (rv $"NE")) ($"E", []) ($"theta", []) (Some ($"theta_table", []));
       ITab1 (cspec None (Some 5) None) (fields r0 r0 (rn 0) (rn 0) (rv $"NR") (rv $"NF")) ($"x", []) ($"g", []) (Some ($"g_table", []))]));
      (Branch (CRel REq (rv $"LF") (rn 7)) (Some (rn 1)) (instrs [
       ITab1 (cspec None (Some 5) None) (fields (rv $"U") r0 (rn 0) (rv $"LF") (rv $"NR") (rv $"NP")) ($"E", []) ($"p", []) (Some ($"p_table", []));
       ITab1 (cspec None (Some 5) None) (fields r0 r0 (rn 0) (rn 0) (rv $"NR") (rv $"NE")) ($"E", []) ($"theta", []) (Some ($"theta_table", []))]));
      (Branch (CRel REq (rv $"LF") (rn 9)) (Some (rn 1)) (instrs [
       ITab1 (cspec None (Some 5) None) (fields (rv $"U") r0 (rn 0) (rv $"LF") (rv $"NR") (rv $"NP")) ($"E", []) ($"p", []) (Some ($"p_table", []));
       ITab1 (cspec None (Some 5) None) (fields r0 r0 (rn 0) (rn 0) (rv $"NR") (rv $"NE")) ($"E", []) ($"theta", []) (Some ($"theta_table", []))]));
      (Branch (CRel REq (rv $"LF") (rn 11)) (Some (rn 1)) (instrs [
       ITab1 (cspec None (Some 5) None) (fields (rv $"U") r0 (rn 0) (rv $"LF") (rv $"NR") (rv $"NP")) ($"E", []) ($"p", []) None;
       IStop]));
      (Branch (CRel REq (rv $"LF") (rn 12)) (Some (rn 1)) (instrs [
       ITab1 (cspec None (Some 5) None) (fields r0 r0 (rn 0) (rv $"LF") (rv $"NR") (rv $"NP")) ($"E", []) ($"p", []) None;
       IStop]))])
      BNil])])]).

(** endf_recipes/endf6/endf_recipe_mf6.py 12-211: ENDF_RECIPE_MF6, without the SEND at the end *)
Definition mf6 : block :=
  (instrs [
    ICont true (cspec None (Some 6) None) (fields (rv $"ZA") (rv $"AWR") (rv $"JP") (rv $"LCT") (rv $"NK") (rn 0));
    IFor $"i" (rn 1) (rv $"NK") (instrs [
     ISection ($"subsection", [IVar $"i"]) ($"subsection", [IVar $"i"]) (instrs [
      ITab1 (cspec None (Some 6) None) (fields (rv $"ZAP") (rv $"AWP") (rv $"LIP") (rv $"LAW") (rv $"NR") (rv $"NP")) ($"Eint", []) ($"yi", []) (Some ($"yields", []));
      IIf (Branch (CRel REq (rv $"LAW") (rn 1)) None (instrs [
       ITab2 (cspec None (Some 6) None) (fields r0 r0 (rv $"LANG") (rv $"LEP") (rv $"NR") (rv $"NE")) None;
       IFor $"j" (rn 1) (rv $"NE") (instrs [
        IAbbrev $"NW" (EMul (EVar $"NEP" [IVar $"j"]) (EAdd (EVar $"NA" [IVar $"j"]) (rn 2)));
        IList (cspec None (Some 6) None) (fields r0 (EVar $"E" [IVar $"j"]) (EVar $"ND" [IVar $"j"]) (EVar $"NA" [IVar $"j"]) (rv $"NW") (EVar $"NEP" [IVar $"j"])) (items [LLoop $"k" (rn 1) (EVar $"NEP" [IVar $"j"]) (items [LExpr (EVar $"Ep" [IVar $"j"; IVar $"k"]); LLoop $"m" (rn 0) (EVar $"NA" [IVar $"j"]) (items [LExpr (EVar $"b" [IVar $"j"; IVar $"k"; IVar $"m"])])])]) None])]))
      (brs [(Branch (CRel REq (rv $"LAW") (rn 2)) None (instrs [
       ITab2 (cspec None (Some 6) None) (fields r0 r0 (rn 0) (rn 0) (rv $"NR") (rv $"NE")) None;
       IFor $"j" (rn 1) (rv $"NE") (instrs [
        IList (cspec None (Some 6) None) (fields r0 (EVar $"E" [IVar $"j"]) (rv $"LANG") (rn 0) (EVar $"NLW" [IVar $"j"]) (EVar $"NL" [IVar $"j"])) (items [LLoop $"l" (rn 1) (EVar $"NLW" [IVar $"j"]) (items [LExpr (EVar $"A" [IVar $"j"; IVar $"l"])])]) None])]));
      (Branch (CRel REq (rv $"LAW") (rn 5)) None (instrs [
       ITab2 (cspec None (Some 6) None) (fields (rv $"SPI") r0 (rv $"LIDP") (rn 0) (rv $"NR") (rv $"NE")) None;
       IFor $"j" (rn 1) (rv $"NE") (instrs [
        IList (cspec None (Some 6) None) (fields r0 (EVar $"E" [IVar $"j"]) (EVar $"LTP" [IVar $"j"]) (rn 0) (EVar $"NW" [IVar $"j"]) (EVar $"NL" [IVar $"j"])) (items [LLoop $"k" (rn 1) (EVar $"NW" [IVar $"j"]) (items [LExpr (EVar $"A" [IVar $"j"; IVar $"k"])])]) None])]));
      (Branch (CRel REq (rv $"LAW") (rn 6)) None (instrs [
       ICont false (cspec None (Some 6) None) (fields (rv $"APSX") r0 (rn 0) (rn 0) (rn 0) (rv $"NPSX"))]));
      (Branch (CRel REq (rv $"LAW") (rn 7)) None (instrs [
       ITab2 (cspec None (Some 6) None) (fields r0 r0 (rn 0) (rn 0) (rv $"NR") (rv $"NE")) (Some ($"E_interpol", []));
       IFor $"j" (rn 1) (rv $"NE") (instrs [
        ITab2 (cspec None (Some 6) None) (fields r0 (EVar $"E" [IVar $"j"]) (rn 0) (rn 0) (rv $"NRM") (EVar $"NMU" [IVar $"j"])) (Some ($"mu_interpol", [IVar $"j"]));
        IFor $"k" (rn 1) (EVar $"NMU" [IVar $"j"]) (instrs [
         ITab1 (cspec None (Some 6) None) (fields r0 (EVar $"mu" [IVar $"j"; IVar $"k"]) (rn 0) (rn 0) (rv $"NRP") (rv $"NEP")) ($"Ep", []) ($"f", []) (Some ($"table", [IVar $"j"; IVar $"k"]))])])]))])
      BNil])])]).

(** endf_recipes/endf6/endf_recipe_mf7.py 12-34: ENDF_RECIPE_MF7_MT2, without the SEND at the end *)
Definition mf7_mt2 : block :=
  (instrs [
    ICont true (cspec None (Some 7) (Some 2)) (fields (rv $"ZA") (rv $"AWR") (rv $"LTHR") (rn 0) (rn 0) (rn 0));
    IIf (Branch (CRel REq (rv $"LTHR") (rn 1)) None (instrs [
     ITab1 (cspec None (Some 7) (Some 2)) (fields (rv $"T0") r0 (rv $"LT") (rn 0) (rv $"NR") (rv $"NP")) ($"Eint", []) ($"S", []) (Some ($"S_T0_table", []));
     IFor $"i" (rn 1) (rv $"LT") (instrs [
      IList (cspec None (Some 7) (Some 2)) (fields (EVar $"T" [IVar $"i"]) r0 (rv $"LI") (rn 0) (rv $"NP") (rn 0)) (items [LLoop $"q" (rn 1) (rv $"NP") (items [LExpr (EVar $"S" [IVar $"q"; IVar $"i"])])]) None])]))
    (brs [(Branch (CRel REq (rv $"LTHR") (rn 2)) None (instrs [
     ITab1 (cspec None (Some 7) (Some 2)) (fields (rv $"SB") r0 (rn 0) (rn 0) (rv $"NR") (rv $"NP")) ($"Tint", []) ($"Wp", []) None]));
    (Branch (CRel REq (rv $"LTHR") (rn 3)) None (instrs [
     ITab1 (cspec None (Some 7) (Some 2)) (fields (rv $"T0") r0 (rv $"LT") (rn 0) (rv $"NR") (rv $"NP")) ($"Eint", []) ($"S", []) (Some ($"S_T0_table", []));
     IFor $"i" (rn 1) (rv $"LT") (instrs [
      IList (cspec None (Some 7) (Some 2)) (fields (EVar $"T" [IVar $"i"]) r0 (rv $"LI") (rn 0) (rv $"NP") (rn 0)) (items [LLoop $"q" (rn 1) (rv $"NP") (items [LExpr (EVar $"S" [IVar $"q"; IVar $"i"])])]) None]);
     ITab1 (cspec None (Some 7) (Some 2)) (fields (rv $"SB") r0 (rn 0) (rn 0) (rv $"NR") (rv $"NP")) ($"Tint", []) ($"Wp", []) None]))])
    BNil]).

(** endf_recipes/endf6/endf_recipe_mf7.py 37-61: ENDF_RECIPE_MF7_MT4, without the SEND at the end *)
Definition mf7_mt4 : block :=
  (instrs [
    ICont true (cspec None (Some 7) (Some 4)) (fields (rv $"ZA") (rv $"AWR") (rn 0) (rv $"LAT") (rv $"LASYM") (rn 0));
    IList (cspec None (Some 7) (Some 4)) (fields r0 r0 (rv $"LLN") (rn 0) (rv $"NI") (rv $"NS")) (items [LLoop $"n" (rn 1) (rv $"NI") (items [LExpr (EVar $"B" [IVar $"n"])])]) None;
    ITab2 (cspec None (Some 7) (Some 4)) (fields r0 r0 (rn 0) (rn 0) (rv $"NR") (rv $"NB")) (Some ($"beta_interp", []));
    IFor $"i" (rn 1) (rv $"NB") (instrs [
     ITab1 (cspec None (Some 7) (Some 4)) (fields (rv $"T0") (EVar $"beta" [IVar $"i"]) (EVar $"LT" [IVar $"i"]) (rn 0) (rv $"NR") (rv $"NP")) ($"alpha", []) ($"S", []) (Some ($"S_table", [IVar $"i"]));
     IFor $"j" (rn 1) (EVar $"LT" [IVar $"i"]) (instrs [
      IList (cspec None (Some 7) (Some 4)) (fields (EVar $"T" [IVar $"j"]) (EVar $"beta" [IVar $"i"]) (EVar $"LI" [IVar $"j"]) (rn 0) (rv $"NP") (rn 0)) (items [LLoop $"q" (rn 1) (rv $"NP") (items [LExpr (EVar $"S" [IVar $"q"; IVar $"i"; IVar $"j"])])]) None])]);
    ITab1 (cspec None (Some 7) (Some 4)) (fields r0 r0 (rn 0) (rn 0) (rv $"NR") (rv $"NT")) ($"Tint", []) ($"Teff0", []) (Some ($"teff0_table", []));
    IIf (Branch (CAnd (CRel RGe (rv $"NI") (rn 7)) (CRel REq (EVar $"B" [INum (NInt 7)]) (rn 0))) None (instrs [
     ITab1 (cspec None (Some 7) (Some 4)) (fields r0 r0 (rn 0) (rn 0) (rv $"NR") (rv $"NT")) ($"Tint", []) ($"Teff1", []) (Some ($"teff1_table", []))]))
    (brs [])
    BNil;
    IIf (Branch (CAnd (CRel RGe (rv $"NI") (rn 13)) (CRel REq (EVar $"B" [INum (NInt 13)]) r0)) None (instrs [
     ITab1 (cspec None (Some 7) (Some 4)) (fields r0 r0 (rn 0) (rn 0) (rv $"NR") (rv $"NT")) ($"Tint", []) ($"Teff2", []) (Some ($"teff2_table", []))]))
    (brs [])
    BNil;
    IIf (Branch (CAnd (CRel RGe (rv $"NI") (rn 19)) (CRel REq (EVar $"B" [INum (NInt 19)]) r0)) None (instrs [
     ITab1 (cspec None (Some 7) (Some 4)) (fields r0 r0 (rn 0) (rn 0) (rv $"NR") (rv $"NT")) ($"Tint", []) ($"Teff3", []) (Some ($"teff3_table", []))]))
    (brs [])
    BNil]).

(** endf_recipes/endf6/endf_recipe_mf7.py 63-72: ENDF_RECIPE_MF7_MT451, without the SEND at the end *)
Definition mf7_mt451 : block :=
  (instrs [
    ICont true (cspec None (Some 7) (Some 451)) (fields (rv $"ZA") (rv $"AWR") (rv $"NA") (rn 0) (rn 0) (rn 0));
    IFor $"i" (rn 1) (rv $"NA") (instrs [
     IList (cspec None (Some 7) (Some 451)) (fields (rn 0) (rn 0) (rv $"NAS") (rn 0) (EMul (rn 6) (EVar $"NI" [IVar $"i"])) (EVar $"NI" [IVar $"i"])) (items [LLoop $"j" (rn 1) (EVar $"NI" [IVar $"i"]) (items [LExpr (EVar $"ZAI" [IVar $"i"; IVar $"j"]); LExpr (EVar $"LISI" [IVar $"i"; IVar $"j"]); LExpr (EVar $"AFI" [IVar $"i"; IVar $"j"]); LExpr (EVar $"AWRI" [IVar $"i"; IVar $"j"]); LExpr (EVar $"SFI" [IVar $"i"; IVar $"j"]); LExpr (rn 0)])]) None])]).

(** endf_recipes/endf6/endf_recipe_mf8.py 12-30: ENDF_RECIPE_MF8, without the SEND at the end *)
Definition mf8 : block :=
  (instrs [
    ICont true (cspec None (Some 8) None) (fields (rv $"ZA") (rv $"AWR") (rv $"LIS") (rv $"LISO") (rv $"NS") (rv $"NO"));
    IIf (Branch (CRel REq (rv $"NO") (rn 0)) None (instrs [
     IFor $"k" (rn 1) (rv $"NS") (instrs [
      ISection ($"subsection", [IVar $"k"]) ($"subsection", [IVar $"k"]) (instrs [
       IList (cspec None (Some 8) None) (fields (rv $"ZAP") (rv $"ELFS") (rv $"LMF") (rv $"LFS") (EMul (rn 6) (rv $"ND")) (rn 0)) (items [LLoop $"l" (rn 1) (rv $"ND") (items [LExpr (EVar $"HL" [IVar $"l"]); LExpr (EVar $"RTYP" [IVar $"l"]); LExpr (EVar $"ZAN" [IVar $"l"]); LExpr (EVar $"BR" [IVar $"l"]); LExpr (EVar $"END" [IVar $"l"]); LExpr (EVar $"CT" [IVar $"l"])])]) None])])]))
    (brs [(Branch (CRel REq (rv $"NO") (rn 1)) None (instrs [
     IFor $"k" (rn 1) (rv $"NS") (instrs [
      ISection ($"subsection", [IVar $"k"]) ($"subsection", [IVar $"k"]) (instrs [
       ICont false (cspec None (Some 8) None) (fields (rv $"ZAP") (rv $"ELFS") (rv $"LMF") (rv $"LFS") (rn 0) (rn 0))])])]))])
    BNil]).

(** endf_recipes/endf6/endf_recipe_mf8_mt454.py 12-22: ENDF_RECIPE_MF8_MT454, without the SEND at the end *)
Definition mf8_mt454 : block :=
  (instrs [
    ICont true (cspec None (Some 8) None) (fields (rv $"ZA") (rv $"AWR") (EAdd (rv $"LE") (rn 1)) (rn 0) (rn 0) (rn 0));
    IList (cspec None (Some 8) None) (fields (EVar $"E" [INum (NInt 0)]) r0 (rv $"LE") (rn 0) (EVar $"NN" [INum (NInt 0)]) (EVar $"NFP" [INum (NInt 0)])) (items [LLoop $"m" (rn 1) (EVar $"NFP" [INum (NInt 0)]) (items [LExpr (EVar $"ZAFP" [INum (NInt 0); IVar $"m"]); LExpr (EVar $"FPS" [INum (NInt 0); IVar $"m"]); LExpr (EVar $"YI" [INum (NInt 0); IVar $"m"]); LExpr (EVar $"DYI" [INum (NInt 0); IVar $"m"])])]) None;
    IFor $"k" (rn 1) (rv $"LE") (instrs [
     IList (cspec None (Some 8) None) (fields (EVar $"E" [IVar $"k"]) r0 (EVar $"I" [IVar $"k"]) (rn 0) (EVar $"NN" [IVar $"k"]) (EVar $"NFP" [IVar $"k"])) (items [LLoop $"m" (rn 1) (EVar $"NFP" [IVar $"k"]) (items [LExpr (EVar $"ZAFP" [IVar $"k"; IVar $"m"]); LExpr (EVar $"FPS" [IVar $"k"; IVar $"m"]); LExpr (EVar $"YI" [IVar $"k"; IVar $"m"]); LExpr (EVar $"DYI" [IVar $"k"; IVar $"m"])])]) None])]).

(** endf_recipes/endf6/endf_recipe_mf8_mt457.py 12-76: ENDF_RECIPE_MF8_MT457, without the SEND at the end *)
Definition mf8_mt457 : block :=
  (instrs [
    IIf (Branch (CRel REq (rv $"NST") (rn 0)) (Some (rn 1)) (instrs [
     ICont true (cspec None (Some 8) (Some 457)) (fields (rv $"ZA") (rv $"AWR") (rv $"LIS") (rv $"LISO") (rv $"NST") (rv $"NSP"));
     IList (cspec None (Some 8) (Some 457)) (fields (rv $"Thalf") (rv $"dThalf") (rn 0) (rn 0) (EMul (rn 2) (rv $"NC")) (rn 0)) (items [LLoop $"k" (rn 1) (rv $"NC") (items [LExpr (EVar $"Ebar_x" [IVar $"k"]); LExpr (EVar $"dEbar_x" [IVar $"k"])])]) None;
     IList (cspec None (Some 8) (Some 457)) (fields (rv $"SPI") (rv $"PAR") (rn 0) (rn 0) (EMul (rn 6) (rv $"NDK")) (rv $"NDK")) (items [LLoop $"k" (rn 1) (rv $"NDK") (items [LExpr (EVar $"RTYP" [IVar $"k"]); LExpr (EVar $"RFS" [IVar $"k"]); LExpr (EVar $"Q" [IVar $"k"]); LExpr (EVar $"dQ" [IVar $"k"]); LExpr (EVar $"BR" [IVar $"k"]); LExpr (EVar $"dBR" [IVar $"k"])])]) None;
     IFor $"k" (rn 1) (rv $"NSP") (instrs [
      ISection ($"spectrum", [IVar $"k"]) ($"spectrum", [IVar $"k"]) (instrs [
       IList (cspec None (Some 8) (Some 457)) (fields r0 (rv $"STYP") (rv $"LCON") (rv $"LCOV") (rn 6) (rv $"NER")) (items [LExpr (rv $"FD"); LExpr (rv $"dFD"); LExpr (rv $"ERAV"); LExpr (rv $"dERAV"); LExpr (rv $"FC"); LExpr (rv $"dFC")]) None;
       IIf (Branch (CRel RNe (rv $"LCON") (rn 1)) None (instrs [
        ISection ($"discrete", []) ($"discrete", []) (instrs [
         IFor $"i" (rn 1) (rv $"NER") (instrs [
          ISection ($"energysec", [IVar $"i"]) ($"energysec", [IVar $"i"]) (instrs [
           IIf (Branch (CRel REq (rv $"NT") (rn 6)) (Some (rn 1)) (instrs [
            IList (cspec None (Some 8) (Some 457)) (fields (rv $"ER") (rv $"dER") (rn 0) (rn 0) (rv $"NT") (rn 0)) (items [LExpr (rv $"RTYP"); LExpr (rv $"TYPE"); LExpr (rv $"RI"); LExpr (rv $"dRI"); LExpr (rv $"RIS"); LExpr (rv $"dRIS")]) None]))
           (brs [(Branch (CRel REq (rv $"NT") (rn 8)) (Some (rn 1)) (instrs [
            IList (cspec None (Some 8) (Some 457)) (fields (rv $"ER") (rv $"dER") (rn 0) (rn 0) (rv $"NT") (rn 0)) (items [LExpr (rv $"RTYP"); LExpr (rv $"TYPE"); LExpr (rv $"RI"); LExpr (rv $"dRI"); LExpr (rv $"RIS"); LExpr (rv $"dRIS"); LExpr (rv $"RICC"); LExpr (rv $"dRICC")]) None]));
           (Branch (CRel REq (rv $"NT") (rn 12)) (Some (rn 1)) (instrs [
            IList (cspec None (Some 8) (Some 457)) (fields (rv $"ER") (rv $"dER") (rn 0) (rn 0) (rv $"NT") (rn 0)) (items [LExpr (rv $"RTYP"); LExpr (rv $"TYPE"); LExpr (rv $"RI"); LExpr (rv $"dRI"); LExpr (rv $"RIS"); LExpr (rv $"dRIS"); LExpr (rv $"RICC"); LExpr (rv $"dRICC"); LExpr (rv $"RICK"); LExpr (rv $"dRICK"); LExpr (rv $"RICL"); LExpr (rv $"dRICL")]) None]))])
           BNil])])])]))
       (brs [])
       BNil;
       IIf (Branch (CRel RNe (rv $"LCON") (rn 0)) None (instrs [
        ISection ($"continuous", []) ($"continuous", []) (instrs [
         ITab1 (cspec None (Some 8) (Some 457)) (fields (rv $"RTYP") r0 (rn 0) (rn 0) (rv $"NR") (rv $"NP")) ($"Eint", []) ($"RP", []) None])]))
       (brs [])
       BNil;
       IIf (Branch (CAnd (CAnd (CRel RNe (rv $"LCOV") (rn 0)) (CRel RNe (rv $"LCOV") (rn 2))) (CRel RNe (rv $"LCON") (rn 0))) None (instrs [
        ISection ($"continuous", []) ($"continuous", []) (instrs [
         IList (cspec None (Some 8) (Some 457)) (fields r0 r0 (rn 0) (rn 2) (EMul (rn 2) (rv $"NPP")) (rv $"NPP")) (items [LLoop $"m" (rn 1) (rv $"NPP") (items [LExpr (EVar $"E" [IVar $"m"]); LExpr (EVar $"F" [IVar $"m"])])]) None])]))
       (brs [])
       BNil;
       IIf (Branch (CAnd (CRel RNe (rv $"LCOV") (rn 0)) (CRel RNe (rv $"LCOV") (rn 1))) None (instrs [
        ISection ($"discrete", []) ($"discrete", []) (instrs [
         ISection ($"cov", []) ($"cov", []) (instrs [
          IList (cspec None (Some 8) (Some 457)) (fields r0 r0 (rv $"LS") (rn 5) (rv $"NE") (rv $"NERP")) (items [LLoop $"m" (rn 1) (rv $"NERP") (items [LExpr (EVar $"E" [IVar $"m"])]); LLoop $"m" (rn 1) (ESub (rv $"NERP") (rn 2)) (items [LLoop $"n" (rv $"m") (ESub (rv $"NERP") (rn 2)) (items [LExpr (EVar $"F" [IVar $"m"; IVar $"n"])])])]) None])])]))
       (brs [])
       BNil])])]))
    (brs [(Branch (CRel REq (rv $"NST") (rn 1)) (Some (rn 1)) (instrs [
     ICont true (cspec None (Some 8) (Some 457)) (fields (rv $"ZA") (rv $"AWR") (rv $"LIS") (rv $"LISO") (rv $"NST") (rn 0));
     IList (cspec None (Some 8) (Some 457)) (fields r0 r0 (rn 0) (rn 0) (rn 6) (rn 0)) (items [LExpr r0; LExpr r0; LExpr r0; LExpr r0; LExpr r0; LExpr r0]) None;
     IList (cspec None (Some 8) (Some 457)) (fields (rv $"SPI") (rv $"PAR") (rn 0) (rn 0) (rn 6) (rn 0)) (items [LExpr r0; LExpr r0; LExpr r0; LExpr r0; LExpr r0; LExpr r0]) None]))])
    BNil]).

(** endf_recipes/endf6/endf_recipe_mf8_mt459.py 12-22: ENDF_RECIPE_MF8_MT459, without the SEND at the end *)
Definition mf8_mt459 : block :=
  (instrs [
    ICont true (cspec None (Some 8) None) (fields (rv $"ZA") (rv $"AWR") (EAdd (rv $"LE") (rn 1)) (rn 0) (rn 0) (rn 0));
    IList (cspec None (Some 8) None) (fields (EVar $"E" [INum (NInt 0)]) r0 (rv $"LE") (rn 0) (EVar $"NN" [INum (NInt 0)]) (EVar $"NFP" [INum (NInt 0)])) (items [LLoop $"m" (rn 1) (EVar $"NFP" [INum (NInt 0)]) (items [LExpr (EVar $"ZAFP" [INum (NInt 0); IVar $"m"]); LExpr (EVar $"FPS" [INum (NInt 0); IVar $"m"]); LExpr (EVar $"YC" [INum (NInt 0); IVar $"m"]); LExpr (EVar $"DYC" [INum (NInt 0); IVar $"m"])])]) None;
    IFor $"k" (rn 1) (rv $"LE") (instrs [
     IList (cspec None (Some 8) None) (fields (EVar $"E" [IVar $"k"]) r0 (EVar $"I" [IVar $"k"]) (rn 0) (EVar $"NN" [IVar $"k"]) (EVar $"NFP" [IVar $"k"])) (items [LLoop $"m" (rn 1) (EVar $"NFP" [IVar $"k"]) (items [LExpr (EVar $"ZAFP" [IVar $"k"; IVar $"m"]); LExpr (EVar $"FPS" [IVar $"k"; IVar $"m"]); LExpr (EVar $"YC" [IVar $"k"; IVar $"m"]); LExpr (EVar $"DYC" [IVar $"k"; IVar $"m"])])]) None])]).

(** endf_recipes/endf6/endf_recipe_mf9.py 12-20: ENDF_RECIPE_MF9, without the SEND at the end *)
Definition mf9 : block :=
  (instrs [
    ICont true (cspec None (Some 9) None) (fields (rv $"ZA") (rv $"AWR") (rv $"LIS") (rn 0) (rv $"NS") (rn 0));
    IFor $"k" (rn 1) (rv $"NS") (instrs [
     ISection ($"subsection", [IVar $"k"]) ($"subsection", [IVar $"k"]) (instrs [
      ITab1 (cspec None (Some 9) None) (fields (rv $"QM") (rv $"QI") (rv $"IZAP") (rv $"LFS") (rv $"NR") (rv $"NP")) ($"E", []) ($"Y", []) None])])]).

(** endf_recipes/endf6_ext/endf_recipe_mf4.py 12-64: ENDF_RECIPE_MF4, without the SEND at the end *)
Definition endf6_ext_mf4 : block :=
  (instrs [
    IIf (Branch (CRel RGt (rv $"LVT") (rn 0)) (Some (rn 1)) (instrs [
     ICont true (cspec None (Some 4) None) (fields (rv $"ZA") (rv $"AWR") (rv $"LVT") (rv $"LTT") (rn 0) (rn 0))]))
    (brs [])
    (instrs [
     ICont true (cspec None (Some 4) None) (fields (rv $"ZA") (rv $"AWR") (rn 0) (rv $"LTT") (rn 0) (rn 0))]);
    IIf (Branch (CRel RGt (rv $"LVT") (rn 0)) None (instrs [
     IList (cspec None (Some 4) None) (fields r0 (rv $"AWR") (rv $"LI") (rv $"LCT") (rv $"NK") (rv $"NM")) (items [LLoop $"k" (rn 1) (rv $"NK") (items [LExpr (EVar $"V" [IVar $"k"])])]) None]))
    (brs [(Branch (CAnd (CRel REq (rv $"LTT") (rn 3)) (CRel REq (rv $"LI") (rn 0))) (Some (rn 1)) (instrs [
     ICont false (cspec None (Some 4) None) (fields r0 (EIncons $"AWR" []) (rv $"LI") (rv $"LCT") (rn 0) (rv $"NM"))]))])
    (instrs [
     ICont false (cspec None (Some 4) None) (fields r0 (EIncons $"AWR" []) (rv $"LI") (EIncons $"LCT" []) (rn 0) (rn 0))]);
    IIf (Branch (CAnd (CRel REq (rv $"LTT") (rn 1)) (CRel REq (rv $"LI") (rn 0))) None (instrs [
     ITab2 (cspec None (Some 4) None) (fields r0 r0 (rn 0) (rn 0) (rv $"NR") (rv $"NE")) None;
     IFor $"i" (rn 1) (rv $"NE") (instrs [
      IList (cspec None (Some 4) None) (fields (rv $"T") (EVar $"E" [IVar $"i"]) (rv $"LT") (rn 0) (EVar $"NL" [IVar $"i"]) (rn 0)) (items [LLoop $"l" (rn 1) (EVar $"NL" [IVar $"i"]) (items [LExpr (EVar $"a" [IVar $"i"; IVar $"l"])])]) None])]))
    (brs [(Branch (CAnd (CRel REq (rv $"LTT") (rn 2)) (CRel REq (rv $"LI") (rn 0))) None (instrs [
     ITab2 (cspec None (Some 4) None) (fields r0 r0 (rn 0) (rn 0) (rv $"NR") (rv $"NE")) (Some ($"energy_table", []));
     IFor $"i" (rn 1) (rv $"NE") (instrs [
      ITab1 (cspec None (Some 4) None) (fields (rv $"T") (EVar $"E" [IVar $"i"]) (rv $"LT") (rn 0) (rv $"NR") (rv $"NP")) ($"mu", []) ($"f", []) (Some ($"angtable", [IVar $"i"]))])]));
    (Branch (CAnd (CRel REq (rv $"LTT") (rn 3)) (CRel REq (rv $"LI") (rn 0))) None (instrs [
     ITab2 (cspec None (Some 4) None) (fields r0 r0 (rn 0) (rn 0) (rv $"NR") (rv $"NE1")) (Some ($"leg_int", []));
     IFor $"i" (rn 1) (rv $"NE1") (instrs [
      IList (cspec None (Some 4) None) (fields (rv $"T") (EVar $"E" [IVar $"i"]) (rv $"LT") (rn 0) (EVar $"NL" [IVar $"i"]) (rn 0)) (items [LLoop $"j" (rn 1) (EVar $"NL" [IVar $"i"]) (items [LExpr (EVar $"al" [IVar $"i"; IVar $"j"])])]) None]);
     ITab2 (cspec None (Some 4) None) (fields r0 r0 (rn 0) (rn 0) (rv $"NR") (rv $"NE2")) (Some ($"ang_int", []));
     IFor $"i" (rv $"NE1") (ESub (EAdd (rv $"NE1") (rv $"NE2")) (rn 1)) (instrs [
      ITab1 (cspec None (Some 4) None) (fields (rv $"T") (EVar $"E" [IVar $"i"]) (rv $"LT") (rn 0) (rv $"NR") (rv $"NP")) ($"mu", []) ($"f", []) (Some ($"angtable", [IVar $"i"]))])]))])
    BNil]).

(** endf_recipes/jendl/endf_recipe_mf8_mt457.py 12-91: ENDF_RECIPE_MF8_MT457, without the SEND at the end *)
Definition jendl_mf8_mt457 : block :=
  (instrs [
    IIf (Branch (CRel REq (rv $"NST") (rn 0)) (Some (rn 1)) (instrs [
     ICont true (cspec None (Some 8) (Some 457)) (fields (rv $"ZA") (rv $"AWR") (rv $"LIS") (rv $"LISO") (rv $"NST") (rv $"NSP"));
     IList (cspec None (Some 8) (Some 457)) (fields (rv $"Thalf") (rv $"dThalf") (rn 0) (rn 0) (EMul (rn 2) (rv $"NC")) (rn 0)) (items [LLoop $"k" (rn 1) (rv $"NC") (items [LExpr (EVar $"Ebar_x" [IVar $"k"]); LExpr (EVar $"dEbar_x" [IVar $"k"])])]) None;
     IList (cspec None (Some 8) (Some 457)) (fields (rv $"SPI") (rv $"PAR") (rn 0) (rn 0) (EMul (rn 6) (rv $"NDK")) (rv $"NDK")) (items [LLoop $"k" (rn 1) (rv $"NDK") (items [LExpr (EVar $"RTYP" [IVar $"k"]); LExpr (EVar $"RFS" [IVar $"k"]); LExpr (EVar $"Q" [IVar $"k"]); LExpr (EVar $"dQ" [IVar $"k"]); LExpr (EVar $"BR" [IVar $"k"]); LExpr (EVar $"dBR" [IVar $"k"])])]) None;
     IFor $"k" (rn 1) (rv $"NSP") (instrs [
      ISection ($"spectrum", [IVar $"k"]) ($"spectrum", [IVar $"k"]) (instrs [
       IList (cspec None (Some 8) (Some 457)) (fields r0 (rv $"STYP") (rv $"LCON") (rv $"LCOV") (rn 6) (rv $"NER")) (items [LExpr (rv $"FD"); LExpr (rv $"dFD"); LExpr (rv $"ERAV"); LExpr (rv $"dERAV"); LExpr (rv $"FC"); LExpr (rv $"dFC")]) None;
       IIf (Branch (CRel RNe (rv $"LCON") (rn 1)) None (instrs [
        ISection ($"discrete", []) ($"discrete", []) (instrs [
         IFor $"i" (rn 1) (rv $"NER") (instrs [
          ISection ($"energysec", [IVar $"i"]) ($"energysec", [IVar $"i"]) (instrs [
           IIf (Branch (CRel REq (rv $"NT") (rn 4)) (Some (rn 1)) (instrs [
            IList (cspec None (Some 8) (Some 457)) (fields (rv $"ER") (rv $"dER") (rn 0) (rn 0) (rv $"NT") (rn 0)) (items [LExpr (rv $"RTYP"); LExpr (rv $"TYPE"); LExpr (rv $"RI"); LExpr (rv $"dRI")]) None]))
           (brs [(Branch (CRel REq (rv $"NT") (rn 6)) (Some (rn 1)) (instrs [
            IList (cspec None (Some 8) (Some 457)) (fields (rv $"ER") (rv $"dER") (rn 0) (rn 0) (rv $"NT") (rn 0)) (items [LExpr (rv $"RTYP"); LExpr (rv $"TYPE"); LExpr (rv $"RI"); LExpr (rv $"dRI"); LExpr (rv $"RIS"); LExpr (rv $"dRIS")]) None]));
           (Branch (CRel REq (rv $"NT") (rn 8)) (Some (rn 1)) (instrs [
            IList (cspec None (Some 8) (Some 457)) (fields (rv $"ER") (rv $"dER") (rn 0) (rn 0) (rv $"NT") (rn 0)) (items [LExpr (rv $"RTYP"); LExpr (rv $"TYPE"); LExpr (rv $"RI"); LExpr (rv $"dRI"); LExpr (rv $"RIS"); LExpr (rv $"dRIS"); LExpr (rv $"RICC"); LExpr (rv $"dRICC")]) None]));
           (Branch (CRel REq (rv $"NT") (rn 10)) (Some (rn 1)) (instrs [
            IList (cspec None (Some 8) (Some 457)) (fields (rv $"ER") (rv $"dER") (rn 0) (rn 0) (rv $"NT") (rn 0)) (items [LExpr (rv $"RTYP"); LExpr (rv $"TYPE"); LExpr (rv $"RI"); LExpr (rv $"dRI"); LExpr (rv $"RIS"); LExpr (rv $"dRIS"); LExpr (rv $"RICC"); LExpr (rv $"dRICC"); LExpr (rv $"RICK"); LExpr (rv $"dRICK")]) None]));
           (Branch (CRel REq (rv $"NT") (rn 12)) (Some (rn 1)) (instrs [
            IList (cspec None (Some 8) (Some 457)) (fields (rv $"ER") (rv $"dER") (rn 0) (rn 0) (rv $"NT") (rn 0)) (items [LExpr (rv $"RTYP"); LExpr (rv $"TYPE"); LExpr (rv $"RI"); LExpr (rv $"dRI"); LExpr (rv $"RIS"); LExpr (rv $"dRIS"); LExpr (rv $"RICC"); LExpr (rv $"dRICC"); LExpr (rv $"RICK"); LExpr (rv $"dRICK"); LExpr (rv $"RICL"); LExpr (rv $"dRICL")]) None]))])
           BNil])])])]))
       (brs [])
       BNil;
       IIf (Branch (CRel RNe (rv $"LCON") (rn 0)) None (instrs [
        ISection ($"continuous", []) ($"continuous", []) (instrs [
         ITab1 (cspec None (Some 8) (Some 457)) (fields (rv $"RTYP") r0 (rn 0) (rn 0) (rv $"NR") (rv $"NP")) ($"Eint", []) ($"RP", []) None])]))
       (brs [])
       BNil;
       IIf (Branch (CAnd (CAnd (CRel RNe (rv $"LCOV") (rn 0)) (CRel RNe (rv $"LCOV") (rn 2))) (CRel RNe (rv $"LCON") (rn 0))) None (instrs [
        ISection ($"continuous", []) ($"continuous", []) (instrs [
         IList (cspec None (Some 8) (Some 457)) (fields r0 r0 (rn 0) (rn 2) (EMul (rn 2) (rv $"NPP")) (rv $"NPP")) (items [LLoop $"m" (rn 1) (rv $"NPP") (items [LExpr (EVar $"E" [IVar $"m"]); LExpr (EVar $"F" [IVar $"m"])])]) None])]))
       (brs [])
       BNil;
       IIf (Branch (CAnd (CRel RNe (rv $"LCOV") (rn 0)) (CRel RNe (rv $"LCOV") (rn 1))) None (instrs [
        ISection ($"discrete", []) ($"discrete", []) (instrs [
         ISection ($"cov", []) ($"cov", []) (instrs [
          IList (cspec None (Some 8) (Some 457)) (fields r0 r0 (rv $"LS") (rn 5) (rv $"NE") (rv $"NERP")) (items [LLoop $"m" (rn 1) (rv $"NERP") (items [LExpr (EVar $"E" [IVar $"m"])]); LLoop $"m" (rn 1) (ESub (rv $"NERP") (rn 2)) (items [LLoop $"n" (rv $"m") (ESub (rv $"NERP") (rn 2)) (items [LExpr (EVar $"F" [IVar $"m"; IVar $"n"])])])]) None])])]))
       (brs [])
       BNil])])]))
    (brs [(Branch (CRel REq (rv $"NST") (rn 1)) (Some (rn 1)) (instrs [
     ICont true (cspec None (Some 8) (Some 457)) (fields (rv $"ZA") (rv $"AWR") (rv $"LIS") (rv $"LISO") (rv $"NST") (rn 0));
     IList (cspec None (Some 8) (Some 457)) (fields r0 r0 (rn 0) (rn 0) (rn 6) (rn 0)) (items [LExpr r0; LExpr r0; LExpr r0; LExpr r0; LExpr r0; LExpr r0]) None;
     IIf (Branch (CRel RNe (rv $"JENDL_LIST_NPL") (rn 6)) (Some (rn 1)) (instrs [
      IList (cspec None (Some 8) (Some 457)) (fields (rv $"SPI") (rv $"PAR") (rn 0) (rn 0) (rv $"JENDL_LIST_NPL") (rn 0)) (items [LLoop $"k" (rn 1) (rv $"JENDL_LIST_NPL") (items [LExpr r0])]) None]))
     (brs [])
     (instrs [
      IList (cspec None (Some 8) (Some 457)) (fields (rv $"SPI") (rv $"PAR") (rn 0) (rn 0) (rn 6) (rn 0)) (items [LExpr r0; LExpr r0; LExpr r0; LExpr r0; LExpr r0; LExpr r0]) None])]))])
    BNil]).

(** endf_recipes/pendf/endf_recipe_mf1_mt451.py 12-130: ENDF_RECIPE_MF1_MT451, without the SEND at the end *)
Definition pendf_mf1_mt451 : block :=
  (instrs [
    ICont true (cspec None (Some 1) (Some 451)) (fields (rv $"ZA") (rv $"AWR") (rv $"LRP") (rv $"LFI") (rv $"NLIB") (rv $"NMOD"));
    ICont false (cspec None (Some 1) (Some 451)) (fields (rv $"ELIS") (rv $"STA") (rv $"LIS") (rv $"LISO") (rn 0) (rv $"NFOR"));
    ICont false (cspec None (Some 1) (Some 451)) (fields (rv $"AWI") (rv $"EMAX") (rv $"LREL") (rn 0) (rv $"NSUB") (rv $"NVER"));
    ICont false (cspec None (Some 1) (Some 451)) (fields (rv $"TEMP") (rv $"TOL") (rv $"LDRV") (rn 0) (rv $"NWD") (rv $"NXC"));
    IFor $"i" (rn 1) (rv $"NWD") (instrs [
     IText (cspec None (Some 1) (Some 451)) [((Some ($"DESCRIPTION", [IVar $"i"])), None)]]);
    IFor $"i" (rn 1) (rv $"NXC") (instrs [
     IDir (cspec None (Some 1) (Some 451)) (EVar $"MFx" [IVar $"i"]) (EVar $"MTx" [IVar $"i"]) (EVar $"NCx" [IVar $"i"]) (EVar $"MOD" [IVar $"i"])])]).

(** endf_recipes/pendf/endf_recipe_mf23.py 12-41: ENDF_RECIPE_MF23, without the SEND at the end *)
Definition pendf_mf23 : block :=
  (instrs [
    ICont true (cspec None (Some 23) None) (fields (rv $"ZA") (rv $"AWR") (rn 0) (rv $"LMTR") (rn 0) (rn 0));
    ITab1 (cspec None (Some 23) None) (fields (rv $"EPE") (rv $"EFL") (rn 0) (rn 0) (rv $"NR") (rv $"NP")) ($"E", []) ($"xs", []) None]).

(** endf_recipes/pendf/endf_recipe_mf2_mt152.py 12-76: ENDF_RECIPE_MF2_MT152, without the SEND at the end *)
Definition pendf_mf2_mt152 : block :=
  (instrs [
    ICont true (cspec None (Some 2) (Some 152)) (fields (rv $"ZA") (rv $"AWR") (rv $"LSSF") (rn 0) (rn 0) (rv $"INTUNR"));
    IAbbrev $"NW" (EAdd (rv $"NSIGZ") (EMul (rv $"NUNR") (EAdd (rn 1) (EMul (rn 5) (rv $"NSIGZ")))));
    IList (cspec None (Some 2) (Some 152)) (fields (rv $"TEMZ") (rn 0) (rn 5) (rv $"NSIGZ") (rv $"NW") (rv $"NUNR")) (items [LLoop $"j" (rn 1) (rv $"NSIGZ") (items [LExpr (EVar $"SIGZ" [IVar $"j"])]); LLoop $"i" (rn 1) (rv $"NUNR") (items [LExpr (EVar $"EUNR" [IVar $"i"]); LLoop $"j" (rn 1) (rv $"NSIGZ") (items [LExpr (EVar $"STOT" [IVar $"i"; IVar $"j"])]); LLoop $"j" (rn 1) (rv $"NSIGZ") (items [LExpr (EVar $"SELAS" [IVar $"i"; IVar $"j"])]); LLoop $"j" (rn 1) (rv $"NSIGZ") (items [LExpr (EVar $"SFIS" [IVar $"i"; IVar $"j"])]); LLoop $"j" (rn 1) (rv $"NSIGZ") (items [LExpr (EVar $"SCAP" [IVar $"i"; IVar $"j"])]); LLoop $"j" (rn 1) (rv $"NSIGZ") (items [LExpr (EVar $"STRN" [IVar $"i"; IVar $"j"])])])]) None]).

(** endf_recipes/pendf/endf_recipe_mf2_mt153.py 12-85: ENDF_RECIPE_MF2_MT153, without the SEND at the end *)
Definition pendf_mf2_mt153 : block :=
  (instrs [
    ICont true (cspec None (Some 2) (Some 153)) (fields (rv $"ZA") (rv $"AWR") (rv $"IINEL") (rv $"IABSO") (rv $"INTUNR") (rv $"NBIN"));
    IAbbrev $"NW" (EMul (EAdd (rn 1) (EMul (rn 6) (rv $"NBIN"))) (rv $"NUNR"));
    IList (cspec None (Some 2) (Some 153)) (fields (rv $"TEMZ") (rn 0) (rv $"LSSF") (rn 0) (rv $"NW") (rv $"NUNR")) (items [LLoop $"i" (rn 1) (rv $"NUNR") (items [LExpr (EVar $"EUNR" [IVar $"i"]); LLoop $"j" (rn 1) (rv $"NBIN") (items [LExpr (EVar $"PROB" [IVar $"i"; IVar $"j"])]); LLoop $"j" (rn 1) (rv $"NBIN") (items [LExpr (EVar $"TOTL" [IVar $"i"; IVar $"j"])]); LLoop $"j" (rn 1) (rv $"NBIN") (items [LExpr (EVar $"ELAS" [IVar $"i"; IVar $"j"])]); LLoop $"j" (rn 1) (rv $"NBIN") (items [LExpr (EVar $"FISS" [IVar $"i"; IVar $"j"])]); LLoop $"j" (rn 1) (rv $"NBIN") (items [LExpr (EVar $"CAPT" [IVar $"i"; IVar $"j"])]); LLoop $"j" (rn 1) (rv $"NBIN") (items [LExpr (EVar $"HEAT" [IVar $"i"; IVar $"j"])])])]) None]).

(** endf_recipes/pendf/endf_recipe_mf3.py 12-65: ENDF_RECIPE_MF3, without the SEND at the end *)
Definition pendf_mf3 : block :=
  (instrs [
    ICont true (cspec None (Some 3) None) (fields (rv $"ZA") (rv $"AWR") (rn 0) (rv $"LMTR") (rn 0) (rn 0));
    ITab1 (cspec None (Some 3) None) (fields (rv $"QM") (rv $"QI") (rn 0) (rv $"LR") (rv $"NR") (rv $"NP")) ($"E", []) ($"xs", []) (Some ($"xstable", []))]).

(** endf_recipes/pendf/endf_recipe_mf6.py 12-243: ENDF_RECIPE_MF6, without the SEND at the end *)
Definition pendf_mf6 : block :=
  (instrs [
    ICont true (cspec None (Some 6) None) (fields (rv $"ZA") (rv $"AWR") (rv $"JP") (rv $"LCT") (rv $"NK") (rn 0));
    IFor $"i" (rn 1) (rv $"NK") (instrs [
     ISection ($"subsection", [IVar $"i"]) ($"subsection", [IVar $"i"]) (instrs [
      IIf (Branch (CAnd (CRel REq (rv $"LAW") (rn 0)) (CRel RGt (rv $"NBRAGG") (rn 0))) (Some (rn 1)) (instrs [
       ITab1 (cspec None (Some 6) None) (fields (rv $"ZAP") (rv $"AWP") (ENeg (rv $"NBRAGG")) (rv $"LAW") (rv $"NR") (rv $"NP")) ($"Eint", []) ($"yi", []) (Some ($"yields", []))]))
      (brs [])
      (instrs [
       ITab1 (cspec None (Some 6) None) (fields (rv $"ZAP") (rv $"AWP") (rv $"LIP") (rv $"LAW") (rv $"NR") (rv $"NP")) ($"Eint", []) ($"yi", []) (Some ($"yields", []));
       IIf (Branch (CAnd (CAnd (CRel REq (rv $"LAW") (rn 1)) (CRel RNe (rv $"LIP") (ENeg (rn 1)))) (CRel RNe (rv $"LIP") (ENeg (rn 2)))) None (instrs [
        ITab2 (cspec None (Some 6) None) (fields r0 r0 (rv $"LANG") (rv $"LEP") (rv $"NR") (rv $"NE")) None;
        IFor $"j" (rn 1) (rv $"NE") (instrs [
         IAbbrev $"NW" (EMul (EVar $"NEP" [IVar $"j"]) (EAdd (EVar $"NA" [IVar $"j"]) (rn 2)));
         IList (cspec None (Some 6) None) (fields r0 (EVar $"E" [IVar $"j"]) (EVar $"ND" [IVar $"j"]) (EVar $"NA" [IVar $"j"]) (rv $"NW") (EVar $"NEP" [IVar $"j"])) (items [LLoop $"k" (rn 1) (EVar $"NEP" [IVar $"j"]) (items [LExpr (EVar $"Ep" [IVar $"j"; IVar $"k"]); LLoop $"m" (rn 0) (EVar $"NA" [IVar $"j"]) (items [LExpr (EVar $"b" [IVar $"j"; IVar $"k"; IVar $"m"])])])]) None])]))
       (brs [(Branch (CRel REq (rv $"LAW") (rn 2)) None (instrs [
        ITab2 (cspec None (Some 6) None) (fields r0 r0 (rn 0) (rn 0) (rv $"NR") (rv $"NE")) None;
        IFor $"j" (rn 1) (rv $"NE") (instrs [
         IList (cspec None (Some 6) None) (fields r0 (EVar $"E" [IVar $"j"]) (rv $"LANG") (rn 0) (EVar $"NLW" [IVar $"j"]) (EVar $"NL" [IVar $"j"])) (items [LLoop $"l" (rn 1) (EVar $"NLW" [IVar $"j"]) (items [LExpr (EVar $"A" [IVar $"j"; IVar $"l"])])]) None])]));
       (Branch (CRel REq (rv $"LAW") (rn 5)) None (instrs [
        ITab2 (cspec None (Some 6) None) (fields (rv $"SPI") r0 (rv $"LIDP") (rn 0) (rv $"NR") (rv $"NE")) None;
        IFor $"j" (rn 1) (rv $"NE") (instrs [
         IList (cspec None (Some 6) None) (fields r0 (EVar $"E" [IVar $"j"]) (EVar $"LTP" [IVar $"j"]) (rn 0) (EVar $"NW" [IVar $"j"]) (EVar $"NL" [IVar $"j"])) (items [LLoop $"k" (rn 1) (EVar $"NW" [IVar $"j"]) (items [LExpr (EVar $"A" [IVar $"j"; IVar $"k"])])]) None])]));
       (Branch (CRel REq (rv $"LAW") (rn 6)) None (instrs [
        ICont false (cspec None (Some 6) None) (fields (rv $"APSX") r0 (rn 0) (rn 0) (rn 0) (rv $"NPSX"))]));
       (Branch (CRel REq (rv $"LAW") (rn 7)) None (instrs [
        ITab2 (cspec None (Some 6) None) (fields r0 r0 (rn 0) (rn 0) (rv $"NR") (rv $"NE")) (Some ($"E_interpol", []));
        IFor $"j" (rn 1) (rv $"NE") (instrs [
         ITab2 (cspec None (Some 6) None) (fields r0 (EVar $"E" [IVar $"j"]) (rn 0) (rn 0) (rv $"NRM") (EVar $"NMU" [IVar $"j"])) (Some ($"mu_interpol", [IVar $"j"]));
         IFor $"k" (rn 1) (EVar $"NMU" [IVar $"j"]) (instrs [
          ITab1 (cspec None (Some 6) None) (fields r0 (EVar $"mu" [IVar $"j"; IVar $"k"]) (rn 0) (rn 0) (rv $"NRP") (rv $"NEP")) ($"Ep", []) ($"f", []) (Some ($"table", [IVar $"j"; IVar $"k"]))])])]));
       (Branch (CAnd (CRel REq (rv $"LAW") (rn 1)) (CRel REq (rv $"LIP") (ENeg (rn 1)))) None (instrs [
        ITab2 (cspec None (Some 6) None) (fields (rv $"TEMP") r0 (rn 3) (rn 1) (rv $"NR") (rv $"NE")) (Some ($"E_interpol", []));
        IFor $"j" (rn 1) (rv $"NE") (instrs [
         IList (cspec None (Some 6) None) (fields r0 (EVar $"E" [IVar $"j"]) (rn 0) (rn 0) (EMul (EVar $"NEP" [IVar $"j"]) (EAdd (rv $"NU") (rn 2))) (EAdd (rv $"NU") (rn 2))) (items [LLoop $"k" (rn 1) (EVar $"NEP" [IVar $"j"]) (items [LExpr (EVar $"Ep" [IVar $"j"; IVar $"k"]); LExpr (EVar $"PDF" [IVar $"j"; IVar $"k"]); LLoop $"m" (rn 1) (rv $"NU") (items [LExpr (EVar $"u" [IVar $"j"; IVar $"k"; IVar $"m"])])])]) None])]));
       (Branch (CAnd (CRel REq (rv $"LAW") (rn 1)) (CRel REq (rv $"LIP") (ENeg (rn 2)))) None (instrs [
        ITab2 (cspec None (Some 6) None) (fields (rv $"TEMP") r0 (rn 3) (rn 1) (rv $"NR") (rv $"NE")) (Some ($"E_interpol", []));
        IFor $"j" (rn 1) (rv $"NE") (instrs [
         IList (cspec None (Some 6) None) (fields r0 (EVar $"E" [IVar $"j"]) (rn 0) (rn 0) (EAdd (rv $"NU") (rn 2)) (EAdd (rv $"NU") (rn 2))) (items [LExpr (EVar $"E" [IVar $"j"]); LExpr (ENum false (NFlt (S754_finite false 4503599627370496 (-52)))); LLoop $"m" (rn 1) (rv $"NU") (items [LExpr (EVar $"u" [IVar $"j"; IVar $"m"])])]) None])]))])
       BNil])])])]).

(** all of them *)
Definition all_recipes : list (str * block) :=
  [($"mf0_mt0_tapehead", mf0_mt0_tapehead);
   ($"mf10", mf10);
   ($"mf12", mf12);
   ($"mf13", mf13);
   ($"mf14", mf14);
   ($"mf15", mf15);
   ($"mf1_mt451", mf1_mt451);
   ($"mf1_mt452", mf1_mt452);
   ($"mf1_mt455", mf1_mt455);
   ($"mf1_mt456", mf1_mt456);
   ($"mf1_mt458", mf1_mt458);
   ($"mf1_mt460", mf1_mt460);
   ($"mf23", mf23);
   ($"mf26", mf26);
   ($"mf27", mf27);
   ($"mf28", mf28);
   ($"mf2_mt151", mf2_mt151);
   ($"mf3", mf3);
   ($"mf31", mf31);
   ($"mf31_mt452_455_456", mf31_mt452_455_456);
   ($"mf32", mf32);
   ($"mf33", mf33);
   ($"mf34", mf34);
   ($"mf35", mf35);
   ($"mf4", mf4);
   ($"mf40", mf40);
   ($"mf5", mf5);
   ($"mf6", mf6);
   ($"mf7_mt2", mf7_mt2);
   ($"mf7_mt4", mf7_mt4);
   ($"mf7_mt451", mf7_mt451);
   ($"mf8", mf8);
   ($"mf8_mt454", mf8_mt454);
   ($"mf8_mt457", mf8_mt457);
   ($"mf8_mt459", mf8_mt459);
   ($"mf9", mf9);
   ($"endf6_ext_mf4", endf6_ext_mf4);
   ($"jendl_mf8_mt457", jendl_mf8_mt457);
   ($"pendf_mf1_mt451", pendf_mf1_mt451);
   ($"pendf_mf23", pendf_mf23);
   ($"pendf_mf2_mt152", pendf_mf2_mt152);
   ($"pendf_mf2_mt153", pendf_mf2_mt153);
   ($"pendf_mf3", pendf_mf3);
   ($"pendf_mf6", pendf_mf6)].
