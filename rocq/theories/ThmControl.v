(** C52-C54: control numbers of records, values of LIST records, formats. *)
From Coq Require Import Ascii String ZArith Bool Lia List.
From Coq Require Import Floats.SpecFloat.
From Verif Require Import PyBase PyFloat ModelFortran ModelRecords ModelTape ModelNum ModelRecipe ModelInterp ModelParser ModelRecipes ModelRegistry.
From Verif Require Import SpecFields SpecLibm SpecTape SpecTapeEx SpecInterp SpecInterpEx SpecControl ProofControl.
Import ListNotations.
Open Scope Z_scope.

(** ** C52 *)
(** If a section is read without an exception, every record was read at a line whose MAT, MF
    and MT are those the recipe gives for one of its records, or that ends the section. *)
Theorem C52_records_placed : forall en recipe o lines s', e_write en = false ->
  run_section en recipe (reset_state o lines []) = (Ok tt, s') ->
  forall a b, In (a, b) (ps_log s') -> placed (r_width (e_ro en)) (specs_block recipe) lines a.
Proof. exact section_placed. Qed.
Print Assumptions C52_records_placed.

(** With the recipes of the package: every record carries the MF number of the section. *)
Theorem C52_formats : forall f rs mf mt recipe en o lines s',
  get_recipe_dict f = Ok rs -> find_recipe rs mf mt = Some recipe -> e_write en = false ->
  run_section en recipe (reset_state o lines []) = (Ok tt, s') ->
  forall a b, In (a, b) (ps_log s') -> exists l mat mf' mt',
    nth_error lines a = Some l /\ carries (r_width (e_ro en)) l mat mf' mt' /\ (mt' = 0 \/ mf' = mf).
Proof. exact format_section_placed. Qed.
Print Assumptions C52_formats.

(** a section of MF=3, and the same with the second record in MF=4 *)
Definition ex52 (mf : Z) : list str :=
  [ex_sl $" 1.001000+3 9.991673-1          0          0          0          0";
   ex_line $" 0.000000+0 0.000000+0          0          0          1          2" 125 mf 1;
   ex_sl $"          2          2";
   ex_sl $" 1.000000-5 2.000000+0 2.000000+7 1.000000+0"; ex_send].
Example C52_example : exists s',
  run_section ex_renv (with_send mf3) (reset_state strict_opts (ex52 3) []) = (Ok tt, s') /\
  ps_log s' = [(0, 1); (1, 4); (4, 5)]%nat /\
  (exists rs, get_recipe_dict $"endf6" = Ok rs /\ find_recipe rs 3 1 = Some (with_send mf3)) /\
  fst (run_section ex_renv (with_send mf3) (reset_state strict_opts (ex52 4) [])) = Err UnexpectedControlRecordError.
Proof.
  eexists. split; [vm_compute; reflexivity|]. split; [vm_compute; reflexivity|]. split.
  - destruct (formats_ok $"endf6") as [rs E]; [right; left; reflexivity|]. exists rs. split; [exact E|].
    assert (Q : bind (get_recipe_dict $"endf6") (fun r => Ok (find_recipe r 3 1)) = Ok (Some (with_send mf3))) by reflexivity.
    rewrite E in Q. cbn [bind] in Q. congruence.
  - vm_compute. reflexivity.
Qed.

(** A dictionary whose MF or MT is not that of the place where it is stored is not written. *)
Theorem C52_wrong_dictionary : forall en explain b o mf mt d z,
  (dget (KStr $"MF") d = Some (vint z) /\ z <> mf) \/ (dget (KStr $"MT") d = Some (vint z) /\ z <> mt) ->
  fst (write_recipe en explain b o mf mt d) = Err UnexpectedControlRecordError.
Proof. exact wrong_numbers. Qed.
Print Assumptions C52_wrong_dictionary.

Example C52_dictionary_example :
  let d := [(KStr $"MAT", vint 125); (KStr $"MF", vint 3); (KStr $"MT", vint 1); (KStr $"TAPEDESCR", VStr $"x")] in
  let b := BCons (IText anyspec [(Some ($"TAPEDESCR", []), None)]) BNil in
  (exists r, fst (write_recipe ex_wenv true b strict_opts 3 1 d) = Ok r) /\
  fst (write_recipe ex_wenv true b strict_opts 4 1 d) = Err UnexpectedControlRecordError.
Proof. split; [eexists; vm_compute; reflexivity | vm_compute; reflexivity]. Qed.

(** ** C53 *)
(** If a LIST record is read without an exception, every value of the record went to an
    element of the recipe, in order, or was skipped by padding. Nothing is left over and no
    element was without a value. *)
Theorem C53_values_taken : forall en cs f body name s s', e_write en = false -> ps_look s = None ->
  exec en (IList cs f body name) s = (Ok tt, s') ->
  exists o o' r c vals s1,
    skip_blank_lines (ps_lines s) (ps_ofs s) = Ok o /\
    read_list (e_ro en) (ps_lines s) o = Ok (r, c, vals, o') /\
    map_read en (combine (cont_vals r) (fields_list f)) (advance o o' s) = (Ok tt, s1) /\
    match name with
    | None => takes_all en body vals s1 s'
    | Some u => exists s2 s3, open_section en u s1 = (Ok tt, s2) /\ takes_all en body vals s2 s3 /\
                              close_section s3 = (Ok tt, s')
    end.
Proof. exact list_all_taken. Qed.
Print Assumptions C53_values_taken.

(** seven values for [A, B, PADLINE, {X[i]}{i=1 to 1}], and one more than the recipe has *)
Definition ex53_instr : instr :=
  IList anyspec (f6 ef0 ef0 (ei 0) (ei 0) (ev0 "NW") (ei 0))
    (LCons (LExpr (ev0 "A")) (LCons (LExpr (ev0 "B")) (LCons LPad
      (LCons (LLoop $"i" (ei 1) (ei 1) (LCons (LExpr (ev1 "X" "i")) LNil)) LNil)))) None.
Definition ex53 (n : string) : list str :=
  [ex_sl (firstn 44 $" 0.000000+0 0.000000+0          0          0          " ++ $"          " ++ list_ascii_of_string n ++ $"          0");
   ex_sl $" 1.000000+0 2.000000+0 0.000000+0 0.000000+0 0.000000+0 0.000000+0";
   ex_sl $" 7.000000+0 8.000000+0"].
Example C53_example : exists s',
  exec ex_renv ex53_instr (ex_state [] [] (ex53 "7")) = (Ok tt, s') /\
  dget (KStr $"X") (ps_dic s') <> None /\
  fst (exec ex_renv ex53_instr (ex_state [] [] (ex53 "8"))) = Err UnconsumedListElementsError /\
  fst (exec ex_renv ex53_instr (ex_state [] [] (ex53 "6"))) = Err MoreListElementsExpectedError.
Proof.
  eexists. split; [vm_compute; reflexivity|]. split; [vm_compute; discriminate|]. split; vm_compute; reflexivity.
Qed.

(** ** C54 *)
(** The names listed as formats are exactly those with recipes. *)
Theorem C54_formats : forall f,
  (In f list_endf_flavors -> exists rs, get_recipe_dict f = Ok rs) /\
  (~ In f list_endf_flavors -> get_recipe_dict f = Err TypeError).
Proof. intros f. split; [apply formats_ok | apply formats_unknown]. Qed.
Print Assumptions C54_formats.

(** A format has a recipe for every section that ENDF-6 has one for ... *)
Theorem C54_no_section_lost : forall f rs base mf mt,
  get_recipe_dict f = Ok rs -> get_recipe_dict $"endf6" = Ok base ->
  (exists b, find_recipe base mf mt = Some b) -> exists b, find_recipe rs mf mt = Some b.
Proof. exact formats_more. Qed.
Print Assumptions C54_no_section_lost.

(** ... and outside the sections it is meant to change it is ENDF-6. *)
Theorem C54_same_elsewhere : forall f rs base mf mt,
  get_recipe_dict f = Ok rs -> get_recipe_dict $"endf6" = Ok base ->
  ~ overridden f mf mt -> find_recipe rs mf mt = find_recipe base mf mt.
Proof. exact formats_same. Qed.
Print Assumptions C54_same_elsewhere.

(** The recipe found for a section is one for this MF and this MT: its records give these
    numbers, or leave MT open. The exception is MF=32. *)
Theorem C54_section_numbers : forall f rs mf mt b, get_recipe_dict f = Ok rs -> mt <> -1 -> find_recipe rs mf mt = Some b ->
  forall cs, In cs (specs_block b) -> cs_mf cs = Some mf /\ (cs_mt cs = None \/ cs_mt cs = Some mt \/ mf = 32).
Proof. exact formats_mt. Qed.
Print Assumptions C54_section_numbers.
Example C54_numbers_example : exists rs b cs, get_recipe_dict $"endf6" = Ok rs /\ find_recipe rs 1 456 = Some b /\
  In cs (specs_block b) /\ cs_mt cs = Some 456.
Proof.
  exists (match get_recipe_dict $"endf6" with Ok r => r | Err _ => [] end), (with_send mf1_mt456). eexists.
  split; [reflexivity|]. split; [reflexivity|]. split; [left; reflexivity|reflexivity].
Qed.
(** The recipe for MF=32 is used for every MT number, but its records have MT=151. *)
Theorem C54_mf32_refuted : exists rs b, get_recipe_dict $"endf6" = Ok rs /\ find_recipe rs 32 152 = Some b /\
  exists cs, In cs (specs_block b) /\ cs_mt cs = Some 151.
Proof.
  exists (match get_recipe_dict $"endf6" with Ok r => r | Err _ => [] end), (with_send mf32).
  split; [reflexivity|]. split; [reflexivity|]. eexists. split; [left; reflexivity|reflexivity].
Qed.
Print Assumptions C54_mf32_refuted.

Example C54_example : (exists rs, get_recipe_dict $"pendf" = Ok rs /\ find_recipe rs 2 152 = Some (with_send pendf_mf2_mt152) /\
    find_recipe rs 2 151 = Some (with_send mf2_mt151)) /\
  (exists rs, get_recipe_dict $"endf6" = Ok rs /\ find_recipe rs 2 152 = None /\ find_recipe rs 8 460 = Some (with_send mf8) /\
    find_recipe rs 8 454 = Some (with_send mf8_mt454)) /\
  ~ overridden $"pendf" 2 151.
Proof.
  split; [|split].
  - exists (match get_recipe_dict $"pendf" with Ok r => r | Err _ => [] end). repeat split; reflexivity.
  - exists (match get_recipe_dict $"endf6" with Ok r => r | Err _ => [] end). repeat split; reflexivity.
  - unfold overridden. intros [(E & _)|[(E & _)|(_ & H)]]; [discriminate E | discriminate E | lia].
Qed.
