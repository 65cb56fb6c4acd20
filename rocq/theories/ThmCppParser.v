(** C65: the two parser classes take the same options and texts for the same thing. *)
From Coq Require Import Ascii String ZArith Bool Lia List.
From Verif Require Import PyBase ProofPyBase PyFloat ModelFortran ModelRecords ModelTape ModelNum ModelRecipe ModelInterp ModelRecipes ModelRegistry ModelParser ModelPath.
From Verif Require Import ModelCpp ModelCppTab ModelCppArr ModelCppRead ModelCppGen ModelCppFile ModelCppWrite ModelCppWriteFile ModelCppParser.
From Verif Require Import SpecFields SpecTape SpecCpp SpecCppTab SpecCppRead SpecCppGen SpecCppWrite SpecLibm SpecTapeEx SpecCppParser.
From Verif Require Import ProofCppReadEx ProofCppParser ThmCppGen ThmCppFile ThmCppWrite.
Import ListNotations.
Open Scope Z_scope.

(** ** Options *)

(** Each option of EndfParserCpp arrives in the compiled functions as the user gave it, or with
    its documented default value, and no option has an influence on another one. *)
Theorem C65_options_read : forall kw args, bind_args cpp_signature [] kw = Some args -> good_values kw ->
  exists s, arg $"array_type" args = OStr s /\
  load_parsing (cpp_read_opts args) = Val
    {| pa_number := wish kw $"ignore_number_mismatch" false; pa_zero := wish kw $"ignore_zero_mismatch" true;
       pa_varspec := wish kw $"ignore_varspec_mismatch" true; pa_accept := wish kw $"accept_spaces" true;
       pa_blank := wish kw $"ignore_blank_lines" false; pa_send := wish kw $"ignore_send_records" false;
       pa_tpid := wish kw $"ignore_missing_tpid" false; pa_preserve := wish kw $"preserve_value_strings" false;
       pa_validate := wish kw $"validate_control_records" false; pa_array := s |}.
Proof. exact load_parsing_ok. Qed.
Theorem C65_options_write : forall kw args, bind_args cpp_signature [] kw = Some args -> good_values kw ->
  exists s, arg $"array_type" args = OStr s /\
  load_writing (cpp_write_opts args) = Val
    {| wa_abuse := wish kw $"abuse_signpos" false; wa_keepE := wish kw $"keep_E" false; wa_noexp := wish kw $"prefer_noexp" false;
       wa_skip := wish kw $"skip_intzero" false; wa_preserve := wish kw $"preserve_value_strings" false;
       wa_linenum := wish kw $"include_linenum" true; wa_array := s |}.
Proof. exact load_writing_ok. Qed.
(** The same for EndfParser. *)
Theorem C65_options_python : forall lib kw args, bind_args py_signature [] kw = Some args -> oget $"width" kw = None ->
  py_read_opts args = {| r_spaces := wish kw $"accept_spaces" true; r_blank := wish kw $"ignore_blank_lines" false;
    r_send := wish kw $"ignore_send_records" false; r_tpid := wish kw $"ignore_missing_tpid" false; r_width := 11;
    r_preserve := wish kw $"preserve_value_strings" false |} /\
  py_write_opts lib args = {| w_abuse := wish kw $"abuse_signpos" false; w_skip := wish kw $"skip_intzero" false; w_noexp := wish kw $"prefer_noexp" false;
    w_keepE := wish kw $"keep_E" false; w_linenum := wish kw $"include_linenum" true; w_width := 11; w_strict := wish kw $"strict_datatypes" false; w_libm := lib |} /\
  py_parse_opts args = {| o_zero := wish kw $"ignore_zero_mismatch" true; o_number := wish kw $"ignore_number_mismatch" false;
    o_varspec := wish kw $"ignore_varspec_mismatch" true; o_fuzzy := wish kw $"fuzzy_matching" true; o_all := false |}.
Proof. exact py_options_ok. Qed.

(** The two classes, called with the same values (by name) for the options that both have:
    the options of the functions are the same. *)
Theorem C65_options_same : forall lib kw kw' pargs cargs,
  bind_args py_signature [] kw = Some pargs -> bind_args cpp_signature [] kw' = Some cargs -> alike kw kw' -> good_values kw' ->
  exists p w, load_parsing (cpp_read_opts cargs) = Val p /\ load_writing (cpp_write_opts cargs) = Val w /\
    same_reading (fields_of p) (py_read_opts pargs) /\ same_options (writing_of w) (py_write_opts lib pargs) /\
    wa_preserve w = r_preserve (py_read_opts pargs) /\
    cr_accept (reading_of p) = r_spaces (py_read_opts pargs) /\ cr_blank (reading_of p) = r_blank (py_read_opts pargs) /\
    cr_send (reading_of p) = r_send (py_read_opts pargs) /\ cr_tpid (reading_of p) = r_tpid (py_read_opts pargs) /\
    cp_zero (co_checks (fields_of p)) = o_zero (py_parse_opts pargs) /\ cp_number (co_checks (fields_of p)) = o_number (py_parse_opts pargs) /\
    cp_varspec (co_checks (fields_of p)) = o_varspec (py_parse_opts pargs) /\
    arg $"array_type" pargs = OStr (pa_array p) /\ wa_array w = pa_array p.
Proof.
  intros lib kw kw' pargs cargs BP BC A G.
  destruct (load_parsing_ok kw' cargs BC G) as (s & E & LP). destruct (load_writing_ok kw' cargs BC G) as (s' & E' & LW).
  assert (s' = s) by congruence. subst s'. destruct (py_options_ok lib kw pargs BP (proj2 A)) as (R & W & P).
  eexists. eexists. split; [exact LP|]. split; [exact LW|]. rewrite R, W, P.
  assert (AA : arg $"array_type" pargs = OStr s).
  { rewrite <- E, (bind_value _ _ _ $"array_type" (OStr $"dict") BP eq_refl), (bind_value _ _ _ $"array_type" (OStr $"dict") BC eq_refl).
    rewrite (proj1 A $"array_type") by discriminate. reflexivity. }
  unfold same_reading, same_options. cbn.
  repeat split; try (apply wish_alike; [exact A|discriminate|discriminate]); try (symmetry; apply wish_alike; [exact A|discriminate|discriminate]); auto.
Qed.

(** Names that are no options are refused by both classes, and so are unknown entries of the
    dictionaries that the compiled functions get. *)
Theorem C65_unknown : forall sig pos kw n v, oget n kw = Some v -> oget n sig = None -> bind_args sig pos kw = None.
Proof.
  intros sig pos kw n v K S. destruct (bind_args sig pos kw) as [a|] eqn:B; [|reflexivity]. exfalso. exact (bind_known sig pos kw a n v B K S).
Qed.

(** ** Files *)

(** The lines of a text and the text of lines: [write] returns the lines that are written to a file,
    [parse] of lines reads what [parsefile] reads. *)
Theorem C65_lines_written : forall ls, Forall one_line ls -> pop_empty (split_chr newline (text_of ls)) = ls.
Proof. exact pop_split. Qed.
Theorem C65_lines_parsed : forall args rs other exc inc ls, Forall one_line ls -> last ls [] <> [] ->
  cpp_parse args rs other exc inc ls = cpp_parse_text args rs other exc inc (text_of ls).
Proof.
  intros args rs other exc inc ls F L. unfold cpp_parse, cpp_parse_text. rewrite getlines_join by assumption. now rewrite getlines_text.
Qed.
(** [parse(write(d))] reads what [writefile] writes. *)
Theorem C65_write_parse : forall wargs wrs wother wexc winc d text lines pargs rs other exc inc,
  cpp_write_text wargs wrs wother wexc winc d = Val text -> cpp_write wargs wrs wother wexc winc d = Val lines -> last lines [] <> [] ->
  cpp_parse pargs rs other exc inc lines = cpp_parse_text pargs rs other exc inc text.
Proof.
  intros wargs wrs wother wexc winc d text lines pargs rs other exc inc T L N. unfold cpp_write in L. rewrite T in L. cbn [cbind] in L. injection L as <-.
  unfold cpp_parse, cpp_parse_text. now rewrite again.
Qed.

(** Files as in C61_whole_files_same: read by the two classes, constructed with the same options,
    they give the same dictionary. *)
Theorem C65_files_read_same : forall lib depth rs kw kw' pargs cargs p other exc inc t m d po' d',
  bind_args py_signature [] kw = Some pargs -> bind_args cpp_signature [] kw' = Some cargs -> alike kw kw' -> good_values kw' ->
  load_parsing (cpp_read_opts cargs) = Val p ->
  strict (py_read_opts pargs) -> tape_ok (py_read_opts pargs) t -> t_mats t = [m] -> t_rest t = [] ->
  Forall plain_line (tape_lines t) -> Forall one_line (tape_lines t) ->
  Forall (fun f => plain_end (pa_accept p) (f_fend f)) (m_files m) -> plain_end (pa_accept p) (m_mend m) -> plain_end (pa_accept p) (t_tend t) ->
  NoDup (map (fun ms => (fst ms, s_mt (snd ms))) (sections m)) ->
  has_recipe rs 0 0 = true -> (forall mf s, In (mf, s) (sections m) -> has_recipe rs mf (s_mt s) = true) ->
  (pa_validate p = true -> selected exc inc 0 0 /\ forall mf s, In (mf, s) (sections m) -> selected exc inc mf (s_mt s)) ->
  (selected exc inc 0 0 -> covered_head rs) ->
  (forall mf s, In (mf, s) (sections m) -> selected exc inc mf (s_mt s) -> covered_section (fields_of p) rs mf s) ->
  parse (py_object lib depth rs pargs) false exc inc (py_parse_opts pargs) (map with_break (tape_lines t)) = (Ok d, po') ->
  cpp_parse_text cargs rs other exc inc (text_of (tape_lines t)) = Val d' ->
  same_dictionary same_data d d'.
Proof.
  intros lib depth rs kw kw' pargs cargs p other exc inc t m d po' d' BP BC A G LP St T Em Er PL OL PF PM PT ND H0 H V NS CS PY CP.
  destruct (C65_options_same lib kw kw' pargs cargs BP BC A G) as (p' & w & LP' & _ & SR & SO & _). rewrite LP in LP'. injection LP' as <-.
  unfold cpp_parse_text in CP. rewrite LP in CP. cbn [cbind] in CP. destruct (negb (str_eqb (pa_array p) $"dict")); [discriminate|]. rewrite getlines_text in CP by exact OL.
  exact (C61_whole_files_same (py_object lib depth rs pargs) (fields_of p) (reading_of p) other exc inc (py_parse_opts pargs) t m d po' d'
    SR eq_refl (proj2 (proj2 (proj2 (proj2 (proj2 SO))))) St T Em Er PL PF PM PT ND H0 H V NS CS PY CP).
Qed.

(** Dictionaries as in C62_whole_files_same: the two classes return the same lines. *)
Theorem C65_files_written_same : forall lib depth rs kw kw' pargs cargs w other exc inc d lines,
  bind_args py_signature [] kw = Some pargs -> bind_args cpp_signature [] kw' = Some cargs -> alike kw kw' -> good_values kw' ->
  load_writing (cpp_write_opts cargs) = Val w -> wa_array w = $"dict" -> wa_keepE w = false -> wa_noexp w = false ->
  is_dict d -> (forall mf mts, In (mf, mts) d -> 0 <= mf) ->
  (forall mf mt s, holds d mf mt s -> selected exc inc mf mt ->
     has_recipe rs mf mt = true /\ covered_writing (writing_of w) (wa_preserve w) (py_write_opts lib pargs) rs mf mt s) ->
  (exists mf mt s, holds d mf mt s /\ mf <> 0 /\ selected exc inc mf mt) ->
  write (py_object lib depth rs pargs) false exc inc (py_parse_opts pargs) d = Ok lines -> Forall one_line lines ->
  cpp_write cargs rs other exc inc d = Val lines.
Proof.
  intros lib depth rs kw kw' pargs cargs w other exc inc d lines BP BC A G LW AR KE NE DD NN CV EX PY OL.
  destruct (C65_options_same lib kw kw' pargs cargs BP BC A G) as (p' & w' & _ & LW' & SR & SO & _). rewrite LW in LW'. injection LW' as <-.
  unfold cpp_write, cpp_write_text. rewrite LW. cbn [cbind]. rewrite AR. change (negb (str_eqb $"dict" $"dict")) with false. cbv iota.
  pose proof (C62_whole_files_same (py_object lib depth rs pargs) (writing_of w) (wa_preserve w) other exc inc (py_parse_opts pargs) d lines SO KE NE (proj1 SR) DD NN CV EX PY) as E. change (p_recipes (py_object lib depth rs pargs)) with rs in E. rewrite E.
  cbn [cbind]. now rewrite pop_split.
Qed.

(** ** A case: the file of C61_whole_files_case, options given by name *)
Definition ex_kw : odict := [($"ignore_zero_mismatch", OBool false); ($"ignore_varspec_mismatch", OInt 0); ($"fuzzy_matching", OBool false)].
Definition ex_kw' : odict := [($"validate_control_records", OBool true); ($"ignore_varspec_mismatch", OInt 0); ($"ignore_zero_mismatch", OBool false)].
Definition args_of (sig kw : odict) : odict := match bind_args sig [] kw with Some a => a | None => [] end.
Example C65_case :
  bind_args py_signature [] ex_kw = Some (args_of py_signature ex_kw) /\ bind_args cpp_signature [] ex_kw' = Some (args_of cpp_signature ex_kw') /\
  alike ex_kw ex_kw' /\ good_values ex_kw' /\
  (exists p, load_parsing (cpp_read_opts (args_of cpp_signature ex_kw')) = Val p /\ fields_of p = ThmCppGen.ex_co true /\ pa_accept p = r_spaces default_ro) /\
  (exists w, load_writing (cpp_write_opts (args_of cpp_signature ex_kw')) = Val w /\ writing_of w = ex_cw /\ wa_preserve w = false /\ wa_array w = $"dict") /\
  py_read_opts (args_of py_signature ex_kw) = default_ro /\ py_write_opts libm_ref (args_of py_signature ex_kw) = default_wo /\
  is_ok (parse (py_object libm_ref 100 endf6 (args_of py_signature ex_kw)) false None None (py_parse_opts (args_of py_signature ex_kw)) (map with_break (tape_lines ex_file))) = true /\
  is_val (cpp_parse_text (args_of cpp_signature ex_kw') endf6 ex_other None None (text_of (tape_lines ex_file))) = true /\
  is_val (cpp_parse (args_of cpp_signature ex_kw') endf6 ex_other None None (tape_lines ex_file)) = true /\
  is_val (cpp_write (args_of cpp_signature ex_kw') endf6 no_other None None ex_dict) = true.
Proof.
  split; [vm_compute; reflexivity|]. split; [vm_compute; reflexivity|]. split; [split; [|reflexivity]|].
  { intros n P C. unfold ex_kw, ex_kw'. cbn [oget].
    destruct (str_eqb n $"ignore_zero_mismatch") eqn:E1; [apply str_eqb_eq in E1; subst n; reflexivity|].
    destruct (str_eqb n $"ignore_varspec_mismatch") eqn:E2; [apply str_eqb_eq in E2; subst n; reflexivity|].
    destruct (str_eqb n $"fuzzy_matching") eqn:E3; [apply str_eqb_eq in E3; subst n; elim C; reflexivity|].
    destruct (str_eqb n $"validate_control_records") eqn:E4; [apply str_eqb_eq in E4; subst n; elim P; reflexivity|]. reflexivity. }
  split; [split|].
  { intros n v s K _ _ ->. apply oget_in in K. unfold ex_kw' in K. repeat (destruct K as [K|K]; [discriminate K|]). destruct K. }
  { intros v K. discriminate K. }
  split; [eexists; split; [vm_compute; reflexivity|split; vm_compute; reflexivity]|].
  split; [eexists; split; [vm_compute; reflexivity|repeat split; vm_compute; reflexivity]|].
  repeat split; vm_compute; reflexivity.
Qed.

(** ** What does not hold *)

(** By position the same arguments mean different options: the fourth one is fuzzy_matching for
    EndfParser and accept_spaces for EndfParserCpp. *)
Theorem C65_positions_refuted : exists pos pargs cargs p,
  bind_args py_signature pos [] = Some pargs /\ bind_args cpp_signature pos [] = Some cargs /\
  load_parsing (cpp_read_opts cargs) = Val p /\ pa_accept p <> r_spaces (py_read_opts pargs).
Proof.
  exists [OBool false; OBool true; OBool true; OBool false], (match bind_args py_signature [OBool false; OBool true; OBool true; OBool false] [] with Some a => a | None => [] end),
    (match bind_args cpp_signature [OBool false; OBool true; OBool true; OBool false] [] with Some a => a | None => [] end).
  eexists. split; [vm_compute; reflexivity|]. split; [vm_compute; reflexivity|]. split; [vm_compute; reflexivity|]. vm_compute. discriminate.
Qed.
(** Some options of EndfParser are no options of EndfParserCpp. *)
Theorem C65_names_refuted : exists kw pargs, bind_args py_signature [] kw = Some pargs /\ bind_args cpp_signature [] kw = None.
Proof. exists [($"fuzzy_matching", OBool false)]. eexists. split; vm_compute; reflexivity. Qed.
(** Lines with line feeds at their ends, as of [readlines()], are lines for EndfParser only: the compiled
    functions get empty lines between them and read behind the end of these. *)
Theorem C65_readlines_refuted : exists kw ls pargs cargs,
  bind_args py_signature [] kw = Some pargs /\ bind_args cpp_signature [] kw = Some cargs /\
  is_ok (parse (py_object libm_ref 100 endf6 pargs) false None None (py_parse_opts pargs) (map with_break ls)) = true /\
  is_val (cpp_parse cargs endf6 ex_other None None ls) = true /\
  cpp_parse cargs endf6 ex_other None None (map with_break ls) = Undefined.
Proof.
  exists [], (tape_lines ex_file), (args_of py_signature []), (args_of cpp_signature []).
  split; [vm_compute; reflexivity|]. split; [vm_compute; reflexivity|]. split; [vm_compute; reflexivity|]. split; vm_compute; reflexivity.
Qed.

Print Assumptions C65_options_read.
Print Assumptions C65_options_write.
Print Assumptions C65_options_python.
Print Assumptions C65_options_same.
Print Assumptions C65_unknown.
Print Assumptions C65_lines_written.
Print Assumptions C65_lines_parsed.
Print Assumptions C65_write_parse.
Print Assumptions C65_files_read_same.
Print Assumptions C65_files_written_same.
Print Assumptions C65_positions_refuted.
Print Assumptions C65_names_refuted.
Print Assumptions C65_readlines_refuted.
