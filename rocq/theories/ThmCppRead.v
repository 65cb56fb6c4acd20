(** C59: whole files read by the C++ and by the Python parser. *)
From Coq Require Import Ascii String ZArith Bool Lia List.
From Verif Require Import PyBase PyFloat ModelFortran ModelRecords ModelTape SpecFields SpecTape SpecLibm SpecTapeEx.
From Verif Require Import ModelCpp ModelCppTab ModelCppRead SpecCpp SpecCppTab SpecCppRead ProofCppRead ProofCppFile ProofCppReadEx.
Import ListNotations.
Open Scope Z_scope.

(** A file with one material, each section once, nothing behind the TEND record, all sections with
    a recipe: if for the selected sections the recipes agree, then both parsers accept the file and
    give the same data for the same MF/MT. (With validate_control_records the C++ parser cannot
    leave a section unparsed, see below.) *)
Theorem C59_same_dictionary : forall (P D : Type)
    (parse_recipe : P -> Z -> Z -> list str -> result D * P) (run_cpp : Z -> Z -> list str -> cpp (D * list str))
    has_recipe ro wo nofail o exc inc p t m,
  r_width ro = 11%nat -> w_width wo = 11%nat -> strict ro -> cr_accept o = r_spaces ro ->
  tape_ok ro t -> t_mats t = [m] -> t_rest t = [] -> Forall plain_line (tape_lines t) ->
  Forall (fun f => plain_end (r_spaces ro) (f_fend f)) (m_files m) ->
  plain_end (r_spaces ro) (m_mend m) -> plain_end (r_spaces ro) (t_tend t) ->
  NoDup (map (fun ms => (fst ms, s_mt (snd ms))) (sections m)) ->
  has_recipe 0 0 = true -> (forall mf s, In (mf, s) (sections m) -> has_recipe mf (s_mt s) = true) ->
  (cr_validate o = true ->
     selected exc inc 0 0 /\ forall mf s, In (mf, s) (sections m) -> selected exc inc mf (s_mt s)) ->
  (selected exc inc 0 0 -> recipes_agree parse_recipe run_cpp ro wo 0 0 [t_head t] []) ->
  (forall mf s, In (mf, s) (sections m) -> selected exc inc mf (s_mt s) ->
     recipes_agree parse_recipe run_cpp ro wo mf (s_mt s) (s_body s) [s_send s]) ->
  exists d p' d', parse_tape parse_recipe has_recipe ro wo nofail exc inc p (map with_break (tape_lines t)) = (Ok d, p') /\
    master_read run_cpp has_recipe o exc inc (tape_lines t) = Val d' /\
    forall mf mt x, holds d mf mt x <-> holds d' mf mt x.
Proof. intros P D pr rc has ro wo nofail o exc inc p t m W Ww. now apply tape_agreement. Qed.
Print Assumptions C59_same_dictionary.

(** The same for data of different types, or data that are not equal but related, and without
    asking that the parsers accept the file: if for the selected sections the data are related
    whenever both programs accept a section, then for a file that both parsers accept the two
    dictionaries have the same MF/MT, with related data or the same lines under each of them. *)
Theorem C59_related_dictionaries : forall (P D E : Type) (R : D -> E -> Prop)
    (parse_recipe : P -> Z -> Z -> list str -> result D * P) (run_cpp : Z -> Z -> list str -> cpp (E * list str))
    has_recipe ro wo o exc inc p t m d p' d',
  r_width ro = 11%nat -> w_width wo = 11%nat -> strict ro -> cr_accept o = r_spaces ro ->
  tape_ok ro t -> t_mats t = [m] -> t_rest t = [] -> Forall plain_line (tape_lines t) ->
  Forall (fun f => plain_end (r_spaces ro) (f_fend f)) (m_files m) ->
  plain_end (r_spaces ro) (m_mend m) -> plain_end (r_spaces ro) (t_tend t) ->
  NoDup (map (fun ms => (fst ms, s_mt (snd ms))) (sections m)) ->
  has_recipe 0 0 = true -> (forall mf s, In (mf, s) (sections m) -> has_recipe mf (s_mt s) = true) ->
  (cr_validate o = true ->
     selected exc inc 0 0 /\ forall mf s, In (mf, s) (sections m) -> selected exc inc mf (s_mt s)) ->
  (selected exc inc 0 0 -> recipes_related R parse_recipe run_cpp ro wo 0 0 [t_head t] []) ->
  (forall mf s, In (mf, s) (sections m) -> selected exc inc mf (s_mt s) ->
     recipes_related R parse_recipe run_cpp ro wo mf (s_mt s) (s_body s) [s_send s]) ->
  parse_tape parse_recipe has_recipe ro wo false exc inc p (map with_break (tape_lines t)) = (Ok d, p') ->
  master_read run_cpp has_recipe o exc inc (tape_lines t) = Val d' ->
  same_dictionary R d d'.
Proof. intros P D E R pr rc has ro wo o exc inc p t m d p' d' W Ww. now apply (tape_relation R pr rc has ro wo o exc inc W Ww p t m). Qed.
Print Assumptions C59_related_dictionaries.

(** The hypotheses are met by the tape of SpecTapeEx, of which MF 3 is parsed and the rest copied. *)
Example C59_same_dictionary_example :
  tape_lines ex_tree = ex_tape /\ strict default_ro /\ tape_ok default_ro ex_tree /\ Forall plain_line (tape_lines ex_tree) /\
  Forall (fun f => plain_end (r_spaces default_ro) (f_fend f)) (m_files ex_material) /\
  plain_end (r_spaces default_ro) (m_mend ex_material) /\ plain_end (r_spaces default_ro) (t_tend ex_tree) /\
  NoDup (map (fun ms => (fst ms, s_mt (snd ms))) (sections ex_material)) /\
  (forall mf s, In (mf, s) (sections ex_material) ->
     recipes_agree ex_py ex_cpp default_ro default_wo mf (s_mt s) (s_body s) [s_send s]) /\
  recipes_agree ex_py ex_cpp default_ro default_wo 0 0 [t_head ex_tree] [] /\
  master_read ex_cpp ex_has (ex_co false false) None ex_include ex_tape =
    Val [(0, [(0, Raw [with_break (ex_row 0)])]);
         (3, [(1, Parsed [with_break (ex_row 1); with_break (ex_row 2)]); (2, Parsed [with_break (ex_row 4)])]);
         (33, [(1, Raw [with_break (ex_row 7)])])].
Proof.
  split; [exact ex_tree_lines|]. split; [repeat split|]. split; [exact ex_tree_ok|]. split; [rewrite ex_tree_lines; exact ex_plain|].
  destruct ex_ends as (E1 & E2 & E3). split; [exact E1|]. split; [exact E2|]. split; [exact E3|]. split; [exact ex_keys|].
  split; [exact ex_agree|]. split; [exact ex_agree_head|]. vm_compute. reflexivity.
Qed.

(** Whatever the file: a section that is not parsed consists of lines of the file that follow each
    other, copied without carriage return and with a line break, and in the columns of MF and MT of
    each of them is the MF and MT under which it is filed. If there is a recipe for it (and it is
    not the tape head) the line behind it has the same MF and no MT: a section without its SEND
    record is rejected. *)
Theorem C59_copied_lines : forall (D : Type) (run_cpp : Z -> Z -> list str -> cpp (D * list str)) has_recipe o exc inc,
  (forall mf mt lines d rest, run_cpp mf mt lines = Val (d, rest) -> exists used, lines = used ++ rest) ->
  forall lines d mf mt ls, master_read run_cpp has_recipe o exc inc lines = Val d -> holds d mf mt (Raw ls) ->
  exists pre body post, lines = pre ++ body ++ post /\ Forall2 copied body ls /\ Forall (in_columns mf mt) body /\
    (has_recipe mf mt = true -> mt <> 0 -> exists e post', post = e :: post' /\ in_columns mf 0 e).
Proof. exact @read_blocks. Qed.
Print Assumptions C59_copied_lines.

Example C59_copied_lines_example : exists d,
  master_read ex_cpp ex_has (ex_co false false) None (Some []) (map (fun l => l ++ [carriage_return]) ex_tape) = Val d /\
  holds d 3 1 (Raw [with_break (ex_row 1); with_break (ex_row 2)]).
Proof.
  match eval vm_compute in (master_read ex_cpp ex_has (ex_co false false) None (Some []) (map (fun l => l ++ [carriage_return]) ex_tape)) with Val ?d => exists d end.
  split; [vm_compute; reflexivity|]. eexists. split; [right; left; reflexivity|]. left. vm_compute. reflexivity.
Qed.

(** A file that starts with a section for which there is a recipe is rejected, unless
    ignore_missing_tpid is set. *)
Theorem C59_missing_head : forall (D : Type) (run_cpp : Z -> Z -> list str -> cpp (D * list str)) has_recipe o exc inc c l r,
  cpp_control c l -> MF c <> 0 -> has_recipe (MF c) (MT c) = true -> cr_tpid o = false ->
  master_read run_cpp has_recipe o exc inc (l :: r) = Throw.
Proof. exact @missing_head. Qed.
Print Assumptions C59_missing_head.

Example C59_missing_head_example : cpp_control (mkctrl 125 3 1) (ex_row 1).
Proof. repeat split; vm_compute; reflexivity. Qed.

(** A second material is rejected: behind the MEND record no section is allowed. *)
Theorem C59_second_material : forall (D : Type) (run_cpp : Z -> Z -> list str -> cpp (D * list str)) has_recipe o exc inc
    ro head m c l r,
  r_width ro = 11%nat -> cr_accept o = r_spaces ro -> cr_send o = false -> cr_validate o = false ->
  (exists mat, carries 11 head mat 0 0) -> material_ok ro m -> Forall plain_line (head :: material_lines m) ->
  Forall (fun f => plain_end (r_spaces ro) (f_fend f)) (m_files m) -> plain_end (r_spaces ro) (m_mend m) ->
  has_recipe 0 0 = true -> (forall mf s, In (mf, s) (sections m) -> has_recipe mf (s_mt s) = true) ->
  (selected exc inc 0 0 -> exists d, forall rest, run_cpp 0 0 (head :: rest) = Val (d, rest)) ->
  (forall mf s, In (mf, s) (sections m) -> selected exc inc mf (s_mt s) ->
     exists d, forall rest, run_cpp mf (s_mt s) (s_body s ++ s_send s :: rest) = Val (d, rest)) ->
  cpp_control c l -> MF c <> 0 -> has_recipe (MF c) (MT c) = true ->
  master_read run_cpp has_recipe o exc inc (head :: material_lines m ++ l :: r) = Throw.
Proof. exact @second_material_thm. Qed.
Print Assumptions C59_second_material.

(** a tape with a second material (MAT 128, one section of MF 5) *)
Definition ex_end : str := $" 0.000000+0 0.000000+0          0          0          0          0".
Definition ex_two : list str :=
  firstn 11 ex_tape ++ [ex_line $" of another material" 128 5 1; ex_line ex_end 128 5 0; ex_line ex_end 128 0 0; ex_line ex_end 0 0 0; ex_row 11].
Example C59_second_material_example :
  (exists mat, carries 11 (ex_row 0) mat 0 0) /\ material_ok default_ro ex_material /\
  Forall plain_line (ex_row 0 :: material_lines ex_material) /\
  (forall mf s, In (mf, s) (sections ex_material) ->
     exists d, forall rest, ex_cpp mf (s_mt s) (s_body s ++ s_send s :: rest) = Val (d, rest)) /\
  ex_two = ex_row 0 :: material_lines ex_material ++ nth 11 ex_two [] :: skipn 12 ex_two /\
  cpp_control (mkctrl 128 5 1) (nth 11 ex_two []).
Proof.
  split; [destruct ex_tree_ok as (_ & H & _); exact H|]. split; [exact ex_material_ok|].
  split; [change (ex_row 0 :: material_lines ex_material) with (firstn 11 ex_tape); apply plain_lines_by; vm_compute; reflexivity|].
  split; [intros mf s I; destruct (ex_agree mf s I) as (d & _ & X); exists d; exact X|].
  split; [vm_compute; reflexivity|repeat split; vm_compute; reflexivity].
Qed.

(** A FEND, MEND or TEND record is known by its control numbers. *)
Theorem C59_end_records : forall accept validate l,
  (forall mat, cpp_is_fend_record accept validate mat l = Val true -> exists m, cpp_control (mkctrl m 0 0) l) /\
  (cpp_is_mend_record accept validate l = Val true -> cpp_control (mkctrl 0 0 0) l) /\
  (cpp_is_tend_record accept validate l = Val true -> cpp_control (mkctrl (-1) 0 0) l).
Proof.
  intros accept validate l. split; [intros mat; exact (fend_control accept validate mat l)|].
  split; [exact (mend_control accept validate l)|exact (tend_control accept validate l)].
Qed.
Print Assumptions C59_end_records.
Example C59_end_records_case : cpp_is_fend_record true true 125 (ex_row 6) = Val true /\
  cpp_is_mend_record true true (ex_row 10) = Val true /\ cpp_is_tend_record true true (ex_row 11) = Val true /\
  cpp_is_mend_record true false (ex_row 6) = Val false.
Proof. repeat split; vm_compute; reflexivity. Qed.

(** ** Where the two parsers differ *)

Definition py_parse (has : Z -> Z -> bool) (inc : selection) (lines : list str) : result (mfdic (section (list str))) * unit :=
  parse_tape ex_py has default_ro default_wo false None inc tt (map with_break lines).
Definition cpp_parse (has : Z -> Z -> bool) (o : croopts) (inc : selection) (lines : list str) : cpp (mfdic (section (list str))) :=
  master_read ex_cpp has o None inc lines.
Definition accepted (x : result (mfdic (section (list str))) * unit) : Prop := exists d, fst x = Ok d.

(** Python merges the sections of both materials; C++ rejects the file. *)
Theorem C59_materials_refuted :
  accepted (py_parse ex_has (Some []) ex_two) /\ cpp_parse ex_has (ex_co false false) (Some []) ex_two = Throw.
Proof. split; [eexists; vm_compute; reflexivity|vm_compute; reflexivity]. Qed.
Print Assumptions C59_materials_refuted.

(** A section without a recipe: the C++ parser leaves out its first line. *)
Theorem C59_no_recipe_refuted : let has mf mt := negb ((mf =? 3) && (mt =? 1)) in
  exists d d', fst (py_parse has (Some []) ex_tape) = Ok d /\ cpp_parse has (ex_co false false) (Some []) ex_tape = Val d' /\
    holds d 3 1 (Raw [with_break (ex_row 1); with_break (ex_row 2)]) /\ holds d' 3 1 (Raw [with_break (ex_row 2)]).
Proof.
  intros has.
  match eval vm_compute in (fst (py_parse has (Some []) ex_tape)) with Ok ?d => exists d end.
  match eval vm_compute in (cpp_parse has (ex_co false false) (Some []) ex_tape) with Val ?d => exists d end.
  split; [vm_compute; reflexivity|]. split; [vm_compute; reflexivity|].
  split; eexists; (split; [right; left; reflexivity|]); vm_compute; tauto.
Qed.
Print Assumptions C59_no_recipe_refuted.

(** Of a section of one line without a recipe nothing is left. *)
Theorem C59_no_recipe_empty_refuted : let has mf mt := negb ((mf =? 33) && (mt =? 1)) in
  exists d', cpp_parse has (ex_co false false) (Some []) ex_tape = Val d' /\ holds d' 33 1 (Raw []).
Proof.
  intros has. match eval vm_compute in (cpp_parse has (ex_co false false) (Some []) ex_tape) with Val ?d => exists d end.
  split; [vm_compute; reflexivity|]. eexists. split; [right; right; left; reflexivity|left; reflexivity].
Qed.
Print Assumptions C59_no_recipe_empty_refuted.

(** A section without a recipe at the start of a file and one with a recipe behind it: the C++
    parser rejects the tape (it says that the MF numbers are not ascending). *)
Definition ex_first : list str :=
  firstn 7 ex_tape ++ [ex_line $" no recipe" 125 33 1; ex_line ex_end 125 33 0;
                       ex_line $" recipe" 125 33 2] ++ skipn 8 ex_tape.
Theorem C59_no_recipe_first_refuted : let has mf mt := negb ((mf =? 33) && (mt =? 1)) in
  accepted (py_parse has (Some []) ex_first) /\ cpp_parse has (ex_co false false) (Some []) ex_first = Throw.
Proof. intros has. split; [eexists; vm_compute; reflexivity|vm_compute; reflexivity]. Qed.
Print Assumptions C59_no_recipe_first_refuted.

(** A file that breaks off: the C++ parser does not miss the FEND, MEND and TEND records, the
    Python parser does. *)
Theorem C59_truncated_refuted :
  (exists e, fst (py_parse ex_has (Some []) (firstn 6 ex_tape)) = Err e) /\
  (exists d, cpp_parse ex_has (ex_co false false) (Some []) (firstn 6 ex_tape) = Val d).
Proof. split; eexists; vm_compute; reflexivity. Qed.
Print Assumptions C59_truncated_refuted.

(** A blank line behind the TEND record: accepted by Python, rejected by C++ *)
Theorem C59_trailing_blank_refuted : let lines := ex_tape ++ [spaces 80] in
  accepted (py_parse ex_has (Some []) lines) /\ cpp_parse ex_has (ex_co false false) (Some []) lines = Throw.
Proof. intros lines. split; [eexists; vm_compute; reflexivity|vm_compute; reflexivity]. Qed.
Print Assumptions C59_trailing_blank_refuted.

(** With validate_control_records every section that is not parsed makes the C++ parser fail: MT
    of its SEND record is compared with MT of the section. *)
Theorem C59_validate_refuted : let only := Some [SMf 0; SMfMt 3 1; SMfMt 3 2] in
  (exists d, cpp_parse ex_has (ex_co true false) None ex_tape = Val d) /\
  (exists d, cpp_parse ex_has (ex_co false false) only ex_tape = Val d) /\
  cpp_parse ex_has (ex_co true false) only ex_tape = Throw.
Proof. intros only. split; [eexists; vm_compute; reflexivity|]. split; [eexists; vm_compute; reflexivity|vm_compute; reflexivity]. Qed.
Print Assumptions C59_validate_refuted.

(** MF numbers that do not ascend are accepted, although there is a check: its arguments are
    declared as bool. *)
Theorem C59_order_refuted : let lines := ex_row 0 :: firstn 3 (skipn 7 ex_tape) ++ firstn 6 (skipn 1 ex_tape) ++ skipn 10 ex_tape in
  exists d, cpp_parse ex_has (ex_co false false) (Some []) lines = Val d /\ map fst d = [0; 33; 3].
Proof.
  intros lines. match eval vm_compute in (cpp_parse ex_has (ex_co false false) (Some []) lines) with Val ?d => exists d end.
  split; vm_compute; reflexivity.
Qed.
Print Assumptions C59_order_refuted.

(** The same MF/MT twice: Python puts the lines together, C++ keeps the last section. *)
Definition ex_twice : list str := firstn 4 ex_tape ++ [ex_row 2; ex_row 3] ++ skipn 4 ex_tape.
Theorem C59_twice_refuted : exists d d', fst (py_parse ex_has (Some []) ex_twice) = Ok d /\
  cpp_parse ex_has (ex_co false false) (Some []) ex_twice = Val d' /\
  holds d 3 1 (Raw [with_break (ex_row 1); with_break (ex_row 2); with_break (ex_row 2)]) /\
  holds d' 3 1 (Raw [with_break (ex_row 2)]).
Proof.
  match eval vm_compute in (fst (py_parse ex_has (Some []) ex_twice)) with Ok ?d => exists d end.
  match eval vm_compute in (cpp_parse ex_has (ex_co false false) (Some []) ex_twice) with Val ?d => exists d end.
  split; [vm_compute; reflexivity|]. split; [vm_compute; reflexivity|].
  split; eexists; (split; [right; left; reflexivity|]); vm_compute; tauto.
Qed.
Print Assumptions C59_twice_refuted.
