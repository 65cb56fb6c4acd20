(** The classes EndfParser and EndfParserCpp: their options, and the texts that are passed to and
    from the compiled functions. *)
From Coq Require Import Ascii String ZArith Bool List.
From Verif Require Import PyBase PyFloat ModelFortran ModelRecords ModelTape ModelNum ModelRecipe ModelInterp ModelParser ModelPath.
From Verif Require Import ModelCpp ModelCppTab ModelCppRead ModelCppGen ModelCppFile ModelCppWrite ModelCppWriteFile.
Import ListNotations.
Open Scope Z_scope.

(** ** Arguments *)

(** a value of an option; other objects are not modelled *)
Inductive oval : Type := OBool (b : bool) | OInt (z : Z) | OStr (s : str) | ONone.
Definition odict : Type := list (str * oval).
Fixpoint oget (n : str) (d : odict) : option oval :=
  match d with
  | [] => None
  | (m, v) :: r => if str_eqb n m then Some v else oget n r
  end.
(** Python's truth value *)
Definition truth (v : oval) : bool :=
  match v with
  | OBool b => b
  | OInt z => negb (z =? 0)
  | OStr s => match s with [] => false | _ => true end
  | ONone => false
  end.

(** A call with arguments by position and by name: the values of the parameters of the
    signature. [None] is the TypeError for too many arguments, an unknown name or a parameter
    that is given twice. *)
Definition bind_args (sig : odict) (pos : list oval) (kw : odict) : option odict :=
  let given := combine (map fst sig) pos in
  if (length sig <? length pos)%nat then None
  else if forallb (fun p => match oget (fst p) sig, oget (fst p) given with Some _, None => true | _, _ => false end) kw then
    Some (map (fun p => (fst p, match oget (fst p) (given ++ kw) with Some v => v | None => snd p end)) sig)
  else None.

(** interpreter/endf_parser.py 104-131 (recipes and parsing_funs: not modelled) *)
Definition py_signature : odict :=
  [ ($"ignore_number_mismatch", OBool false); ($"ignore_zero_mismatch", OBool true); ($"ignore_varspec_mismatch", OBool true);
    ($"fuzzy_matching", OBool true); ($"abuse_signpos", OBool false); ($"skip_intzero", OBool false); ($"prefer_noexp", OBool false);
    ($"accept_spaces", OBool true); ($"ignore_blank_lines", OBool false); ($"ignore_send_records", OBool false);
    ($"ignore_missing_tpid", OBool false); ($"keep_E", OBool false); ($"preserve_value_strings", OBool false);
    ($"include_linenum", OBool true); ($"width", OInt 11); ($"check_arrays", OBool true); ($"strict_datatypes", OBool false);
    ($"array_type", OStr $"dict"); ($"explain_missing_variable", OBool true); ($"cache_dir", ONone); ($"print_cache_info", OBool true);
    ($"endf_format", OStr $"endf6-ext"); ($"recipes", ONone); ($"parsing_funs", ONone); ($"loglevel", OInt 30) ].
(** cpp_parsers/endf_parser_cpp.py 42-60 *)
Definition cpp_signature : odict :=
  [ ($"ignore_number_mismatch", OBool false); ($"ignore_zero_mismatch", OBool true); ($"ignore_varspec_mismatch", OBool true);
    ($"accept_spaces", OBool true); ($"ignore_blank_lines", OBool false); ($"ignore_send_records", OBool false);
    ($"ignore_missing_tpid", OBool false); ($"validate_control_records", OBool false); ($"abuse_signpos", OBool false);
    ($"keep_E", OBool false); ($"preserve_value_strings", OBool false); ($"include_linenum", OBool true);
    ($"array_type", OStr $"dict"); ($"skip_intzero", OBool false); ($"prefer_noexp", OBool false); ($"endf_format", OStr $"endf6-ext") ].

(** the value of a parameter (all parameters have one) *)
Definition arg (n : str) (args : odict) : oval := match oget n args with Some v => v | None => ONone end.

(** ** EndfParser *)

(** interpreter/endf_parser.py 297-303, 304-314, 315-322; [lib] is the C library. Negative widths
    are not modelled. *)
Definition py_parse_opts (args : odict) : popts :=
  {| o_zero := truth (arg $"ignore_zero_mismatch" args); o_number := truth (arg $"ignore_number_mismatch" args);
     o_varspec := truth (arg $"ignore_varspec_mismatch" args); o_fuzzy := truth (arg $"fuzzy_matching" args); o_all := false |}.
Definition py_width (args : odict) : nat := match arg $"width" args with OInt z => Z.to_nat z | _ => 0%nat end.
Definition py_write_opts (lib : libm) (args : odict) : wopts :=
  {| w_abuse := truth (arg $"abuse_signpos" args); w_skip := truth (arg $"skip_intzero" args); w_noexp := truth (arg $"prefer_noexp" args);
     w_keepE := truth (arg $"keep_E" args); w_linenum := truth (arg $"include_linenum" args); w_width := py_width args;
     w_strict := truth (arg $"strict_datatypes" args); w_libm := lib |}.
Definition py_read_opts (args : odict) : ropts :=
  {| r_spaces := truth (arg $"accept_spaces" args); r_blank := truth (arg $"ignore_blank_lines" args);
     r_send := truth (arg $"ignore_send_records" args); r_tpid := truth (arg $"ignore_missing_tpid" args);
     r_width := py_width args; r_preserve := truth (arg $"preserve_value_strings" args) |}.
(** the parser object; [depth] bounds the nesting of the interpreter (ModelInterp.v) *)
Definition py_object (lib : libm) (depth : nat) (rs : recipes) (args : odict) : parser :=
  {| p_ro := py_read_opts args; p_wo := py_write_opts lib args; p_depth := depth; p_recipes := rs;
     p_explain := truth (arg $"explain_missing_variable" args) |}.

(** ** EndfParserCpp *)

Definition pick (names : list (str * str)) (args : odict) : odict := map (fun p => (fst p, arg (snd p) args)) names.
(** endf_parser_cpp.py 143-154: keys of the dictionary and parameters *)
Definition cpp_read_opts : odict -> odict := pick
  [ ($"ignore_number_mismatch", $"ignore_number_mismatch"); ($"ignore_zero_mismatch", $"ignore_zero_mismatch");
    ($"ignore_varspec_mismatch", $"ignore_varspec_mismatch"); ($"accept_spaces", $"accept_spaces");
    ($"ignore_blank_lines", $"ignore_blank_lines"); ($"ignore_send_records", $"ignore_send_records");
    ($"ignore_missing_tpid", $"ignore_missing_tpid"); ($"preserve_value_strings", $"preserve_value_strings");
    ($"validate_control_records", $"validate_control_records"); ($"array_type", $"array_type") ].
(** endf_parser_cpp.py 155-163 *)
Definition cpp_write_opts : odict -> odict := pick
  [ ($"abuse_signpos", $"abuse_signpos"); ($"keep_E", $"keep_E"); ($"include_linenum", $"include_linenum");
    ($"skip_intzero", $"skip_intzero"); ($"prefer_noexp", $"prefer_noexp");
    ($"preserve_value_strings", $"preserve_value_strings"); ($"array_type", $"array_type") ].

(** pybind11's [cast<bool>]: objects with a slot [nb_bool] and None; strings have none.
    [cast<std::string>]: strings only *)
Definition cast_bool (v : oval) : cpp bool := match v with OStr _ => Throw | _ => Val (truth v) end.
Definition cast_text (v : oval) : cpp str := match v with OStr s => Val s | _ => Throw end.
(** a member of the structure: the entry of the dictionary, if there is one, and the default value *)
Definition load_bool (d : odict) (n : str) (default : bool) : cpp bool :=
  match oget n d with Some v => cast_bool v | None => Val default end.
Definition load_text (d : odict) (n : str) (default : str) : cpp str :=
  match oget n d with Some v => cast_text v | None => Val default end.
Definition only_keys (names : list str) (d : odict) : bool := forallb (fun p => existsb (str_eqb (fst p)) names) d.

(** compiler/cpp_templates/module_header_reading.hpp 16-27 *)
Record parsing_options : Type := {
  pa_number : bool; pa_zero : bool; pa_varspec : bool; pa_accept : bool; pa_blank : bool;
  pa_send : bool; pa_tpid : bool; pa_preserve : bool; pa_validate : bool; pa_array : str
}.
(** module_header_reading.hpp 30-43, 52-125. Simplified: the loop over the keys and the default
    values are put together; which of several exceptions is raised is not modelled. *)
Definition load_parsing (d : odict) : cpp parsing_options :=
  if negb (only_keys [$"ignore_number_mismatch"; $"ignore_zero_mismatch"; $"ignore_varspec_mismatch"; $"accept_spaces"; $"ignore_blank_lines";
                      $"ignore_send_records"; $"ignore_missing_tpid"; $"preserve_value_strings"; $"validate_control_records"; $"array_type"] d)
  then Throw else
  let* number := load_bool d $"ignore_number_mismatch" false in
  let* zero := load_bool d $"ignore_zero_mismatch" true in
  let* varspec := load_bool d $"ignore_varspec_mismatch" true in
  let* accept := load_bool d $"accept_spaces" true in
  let* blank := load_bool d $"ignore_blank_lines" false in
  let* send := load_bool d $"ignore_send_records" false in
  let* tpid := load_bool d $"ignore_missing_tpid" false in
  let* preserve := load_bool d $"preserve_value_strings" false in
  let* validate := load_bool d $"validate_control_records" false in
  let* array := load_text d $"array_type" $"dict" in
  Val {| pa_number := number; pa_zero := zero; pa_varspec := varspec; pa_accept := accept; pa_blank := blank;
         pa_send := send; pa_tpid := tpid; pa_preserve := preserve; pa_validate := validate; pa_array := array |}.

(** module_header_writing.hpp 16-24 *)
Record writing_options : Type := {
  wa_abuse : bool; wa_keepE : bool; wa_noexp : bool; wa_skip : bool; wa_preserve : bool; wa_linenum : bool; wa_array : str
}.
(** module_header_writing.hpp 27-37, 46-94 *)
Definition load_writing (d : odict) : cpp writing_options :=
  if negb (only_keys [$"abuse_signpos"; $"keep_E"; $"prefer_noexp"; $"skip_intzero"; $"include_linenum"; $"preserve_value_strings"; $"array_type"] d)
  then Throw else
  let* abuse := load_bool d $"abuse_signpos" false in
  let* keepE := load_bool d $"keep_E" false in
  let* noexp := load_bool d $"prefer_noexp" false in
  let* skip := load_bool d $"skip_intzero" false in
  let* preserve := load_bool d $"preserve_value_strings" false in
  let* linenum := load_bool d $"include_linenum" true in
  let* array := load_text d $"array_type" $"dict" in
  Val {| wa_abuse := abuse; wa_keepE := keepE; wa_noexp := noexp; wa_skip := skip; wa_preserve := preserve; wa_linenum := linenum;
         wa_array := array |}.

(** the options that the functions of ModelCpp*.v look at *)
Definition reading_of (p : parsing_options) : croopts :=
  {| cr_accept := pa_accept p; cr_validate := pa_validate p; cr_blank := pa_blank p; cr_send := pa_send p; cr_tpid := pa_tpid p |}.
Definition fields_of (p : parsing_options) : copts :=
  {| co_accept := pa_accept p; co_preserve := pa_preserve p; co_validate := pa_validate p;
     co_checks := {| cp_zero := pa_zero p; cp_number := pa_number p; cp_varspec := pa_varspec p |} |}.
Definition writing_of (w : writing_options) : cwopts :=
  {| cw_abuse := wa_abuse w; cw_keepE := wa_keepE w; cw_noexp := wa_noexp w; cw_skip := wa_skip w; cw_linenum := wa_linenum w |}.

(** ** Texts *)

(** [lines[-1] == ""]: [lines.pop()] (endf_parser_cpp.py 274-275) *)
Definition pop_empty (l : list str) : list str := match last l [zero_chr] with [] => removelast l | _ => l end.
(** the lines that [std::getline] finds in a text, one call after the other: a line is what is in front
    of a line feed; there is no line behind the last line feed if nothing is there *)
Fixpoint getlines (cur s : str) : list str :=
  match s with
  | [] => match cur with [] => [] | _ => [cur] end
  | c :: r => if chr_eqb c newline then cur :: getlines [] r else getlines (cur ++ [c]) r
  end.

(** endf_parser_cpp.py 195-219 with a list and with a text; code_generator_parsing.py 429-441.
    With lists as arrays (array_type) the functions are not modelled. *)
Definition cpp_parse_text (args : odict) (rs : recipes) (other : block -> list str -> cpp (dict * list str)) (exclude include : selection)
    (text : str) : cpp (mfdic (section dict)) :=
  let* p := load_parsing (cpp_read_opts args) in
  if negb (str_eqb (pa_array p) $"dict") then Undefined
  else compiled_parse (fields_of p) (reading_of p) rs other exclude include (getlines [] text).
Definition cpp_parse (args : odict) (rs : recipes) (other : block -> list str -> cpp (dict * list str)) (exclude include : selection)
    (lines : list str) : cpp (mfdic (section dict)) :=
  cpp_parse_text args rs other exclude include (join [newline] lines).
(** endf_parser_cpp.py 259-276; code_generator_writing.py 490-504 *)
Definition cpp_write_text (args : odict) (rs : recipes) (other : block -> dict -> cpp str) (exclude include : selection)
    (d : mfdic (section dict)) : cpp str :=
  let* w := load_writing (cpp_write_opts args) in
  if negb (str_eqb (wa_array w) $"dict") then Undefined
  else compiled_write_file (writing_of w) (wa_preserve w) rs other exclude include d.
Definition cpp_write (args : odict) (rs : recipes) (other : block -> dict -> cpp str) (exclude include : selection)
    (d : mfdic (section dict)) : cpp (list str) :=
  let* text := cpp_write_text args rs other exclude include d in Val (pop_empty (split_chr newline text)).
