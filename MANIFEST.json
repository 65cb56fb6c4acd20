{
 "claims": [
  {
   "property": "C01",
   "status": "proved",
   "theorems": [
    "C01_verbatim_roundtrip",
    "C01_no_section_refuted"
   ],
   "note": "Needs at least one section: a tape head alone, or an empty dictionary, is written but not read back (refuted)."
  },
  {
   "property": "C02",
   "status": "proved",
   "theorems": [
    "C02_contents",
    "C02_one_material_refuted"
   ],
   "note": "Finding: sections with the same MF/MT of different materials are merged."
  },
  {
   "property": "C03",
   "status": "proved",
   "theorems": [
    "C03_nesting"
   ],
   "note": ""
  },
  {
   "property": "C04",
   "status": "proved",
   "theorems": [
    "C04_skeleton"
   ],
   "note": "Holds for every recipe interpreter whose control numbers of the sections of the dictionary fit their columns; the parsed case is shown with the shipped recipe of MF1/MT451 (C04_parsed_case)."
  },
  {
   "property": "C05",
   "status": "proved",
   "theorems": [
    "C05_width",
    "C05_short_line_refuted"
   ],
   "note": "Finding: verbatim lines that are too short are neither padded nor rejected."
  },
  {
   "property": "C06",
   "status": "proved",
   "theorems": [
    "C06_line_numbers",
    "C06_wrap"
   ],
   "note": ""
  },
  {
   "property": "C07",
   "status": "proved",
   "theorems": [
    "C07_parse_selection",
    "C07_write_selection"
   ],
   "note": ""
  },
  {
   "property": "C08",
   "status": "proved",
   "theorems": [
    "C08_sections_independent",
    "C08_history_of_successes",
    "C08_history",
    "C08_history_accepts",
    "C08_history_refuted",
    "C08_other_sections_refuted"
   ],
   "note": "Proved for parses without nofail and for recipes without lookahead. Otherwise false of the code: a failing lookahead leaves ignore_all_mismatches set, which changes how later sections and files are parsed (refuted). For all recipes and all histories, also of failed calls, the options only get more lenient: what a new parser object accepts is accepted with the same result (C08_history_accepts)."
  },
  {
   "property": "C09",
   "status": "proved",
   "theorems": [
    "C09_control_columns",
    "C09_control_width"
   ],
   "note": ""
  },
  {
   "property": "C10",
   "status": "proved",
   "theorems": [
    "C10_integer_field",
    "C10_accepted_fields",
    "C10_rejection"
   ],
   "note": ""
  },
  {
   "property": "C11",
   "status": "proved",
   "theorems": [
    "C11_float_field",
    "C11_accepted_fields",
    "C11_blank_field",
    "C11_spaces_ignored",
    "C11_inner_spaces_rejected",
    "C11_bare_exponent_after_point_refuted"
   ],
   "note": "Fields in Fortran notation read as the nearest double. Exception found: an exponent without letter directly behind the decimal point (1.+5) is rejected."
  },
  {
   "property": "C12",
   "status": "proved",
   "theorems": [
    "C12_libm_reference",
    "C12_field_filled",
    "C12_field_filled_all_options",
    "C12_subnormal_refuted",
    "C12_not_finite_rejected"
   ],
   "note": "All normal doubles and integers without prefer_noexp; magnitudes up to 1e308 with it. Finding: subnormal numbers raise ZeroDivisionError. Relative to stated assumptions on log10/pow, shown satisfiable."
  },
  {
   "property": "C13",
   "status": "proved",
   "theorems": [
    "C13_half_unit",
    "C13_read_back",
    "C13_no_drift",
    "C13_same_text_refuted",
    "C13_largest_refuted"
   ],
   "note": "Half a unit of the last digit up to the 2^-48 error of the division by the power of ten. Findings: text not stable just below 1e-9 and 1e-99 (value is); the largest double reads back as infinity."
  },
  {
   "property": "C14",
   "status": "proved",
   "theorems": [
    "C14_at_least_as_close"
   ],
   "note": "Distances are those of the numbers read back."
  },
  {
   "property": "C15",
   "status": "proved",
   "theorems": [
    "C15_field_verbatim",
    "C15_line_verbatim",
    "C15_blank_and_short_refuted"
   ],
   "note": "Findings: blank fields and short fields are not reproduced."
  },
  {
   "property": "C16",
   "status": "proved",
   "theorems": [
    "C16_float_array",
    "C16_int_array"
   ],
   "note": ""
  },
  {
   "property": "C17",
   "status": "proved",
   "theorems": [
    "C17_cont",
    "C17_dir",
    "C17_integer_slots"
   ],
   "note": ""
  },
  {
   "property": "C18",
   "status": "proved",
   "theorems": [
    "C18_list",
    "C18_list_length_checked"
   ],
   "note": ""
  },
  {
   "property": "C19",
   "status": "proved",
   "theorems": [
    "C19_tab1",
    "C19_tab2"
   ],
   "note": ""
  },
  {
   "property": "C20",
   "status": "proved",
   "theorems": [
    "C20_tab1_writable",
    "C20_tab2_writable",
    "C20_readable_is_writable_refuted"
   ],
   "note": "The property is false of the code; the refutation and the exact condition for writability are proved."
  },
  {
   "property": "C21",
   "status": "proved",
   "theorems": [
    "C21_intg",
    "C21_ndigit3_reads_14",
    "C21_ndigit3_line_too_long",
    "C21_ndigit3_refuted"
   ],
   "note": "Proved for NDIGIT 2,4,5,6; for NDIGIT=3 the property is false of the code and refuted."
  },
  {
   "property": "C22",
   "status": "proved",
   "theorems": [
    "C22_fields_read_write",
    "C22_fields_write_read",
    "C22_length_checked",
    "C22_overlong_refuted",
    "C22_text_columns"
   ],
   "note": "Columns of the line, and the fields a recipe divides them into: read then written, written then read, lengths checked. Refuted part: a field without a length in the recipe is not checked against the 66 columns."
  },
  {
   "property": "C23",
   "status": "proved",
   "theorems": [
    "C23_inverted",
    "C23_variable",
    "C23_zero_coefficient_refuted",
    "C23_unassigned_refuted",
    "C23_large_refuted"
   ],
   "note": "Integer expressions with +, -, * and abbreviations and one unknown variable, numbers below 2^53 (fields have 11 columns); lone variables with any value. Division and modulo in the expression are outside. Refuted parts: a coefficient that is 0 raises ZeroDivisionError or leaves the variable without value; beyond 2^53 a wrong value is assigned."
  },
  {
   "property": "C24",
   "status": "proved",
   "theorems": [
    "C24_integer_checked",
    "C24_known_checked",
    "C24_repeated_checked",
    "C24_record_checked",
    "C24_accepted_passes"
   ],
   "note": "All fields of a record read in up to three passes; integer expressions by an independent semantics, any other by the evaluator."
  },
  {
   "property": "C25",
   "status": "proved",
   "theorems": [
    "C25_section_monotone",
    "C25_parse_monotone",
    "C25_nofail_refuted"
   ],
   "note": "For nofail=False. With nofail=True a verbatim section may become a parsed one (refuted)."
  },
  {
   "property": "C26",
   "status": "proved",
   "theorems": [
    "C26_range",
    "C26_same_variable"
   ],
   "note": ""
  },
  {
   "property": "C27",
   "status": "proved",
   "theorems": [
    "C27_first_branch"
   ],
   "note": "Clauses without lookahead; the lookahead itself is C28."
  },
  {
   "property": "C28",
   "status": "proved",
   "theorems": [
    "C28_no_trace",
    "C28_failing_refuted"
   ],
   "note": "Proved if the evaluation succeeds. Finding: a lookahead that raises leaves ignore_all_mismatches set (refuted)."
  },
  {
   "property": "C29",
   "status": "proved",
   "theorems": [
    "C29_section",
    "C29_outwards",
    "C29_local"
   ],
   "note": ""
  },
  {
   "property": "C30",
   "status": "proved",
   "theorems": [
    "C30_covered"
   ],
   "note": "Blank lines may be skipped."
  },
  {
   "property": "C31",
   "status": "partial",
   "theorems": [
    "C31_round_trip_partial",
    "C31_round_trip_lookahead_partial",
    "C31_no_branch_refuted",
    "C31_overflow_refuted",
    "C31_zero_factor_refuted",
    "C31_round_trip_abbreviations_partial",
    "C31_round_trip_reused_abbreviations_partial",
    "C31_negative_count_refuted"
   ],
   "note": "Proved in both directions (what is read is the data as printed; what is not read has no influence on the lines) for recipes without INTG records and lookahead by more than one record; 27 recipes of the package are covered as they are, and three more (MF6, PENDF MF2/MT152 and MT153) with their abbreviations replaced by the expressions, for which C57 gives the same result (for MF6, in which NW is both an abbreviation and a variable, up to the exception for that). With lookahead and no else branch: for dictionaries with which a branch is chosen. False for numbers wider than their columns, products with a zero factor, negative counts, and conditionals with lookahead that choose nothing (refuted)."
  },
  {
   "property": "C32",
   "status": "proved",
   "theorems": [
    "C32_all_present",
    "C32_element_present",
    "C32_table_present",
    "C32_values",
    "C32_reported",
    "C32_unexplained_refuted"
   ],
   "note": "Per record, list element and table section in the open section; the reported exception for a field that is an absent variable. Refuted part: with explain_missing_variable=False the exception is an UnboundLocalError."
  },
  {
   "property": "C33",
   "status": "partial",
   "theorems": [
    "C33_kept",
    "C33_failure_refuted"
   ],
   "note": "Proved when write() returns, except that MF and MT are added when absent. Refuted when it raises: working entries such as __abbrevs stay in the dictionary."
  },
  {
   "property": "C34",
   "status": "partial",
   "theorems": [
    "C34_other_exceptions_refuted",
    "C34_failures_caught_partial",
    "C34_written_again_refuted"
   ],
   "note": "Only errors of the parser are caught; other exceptions escape (refuted with a truncated LIST). Assumed of the recipes only for the sections of the file that have one and are selected. The returned lines have an additional SEND record, so that the rewritten tape is rejected (refuted)."
  },
  {
   "property": "C35",
   "status": "proved",
   "theorems": [
    "C35_blank_lines",
    "C35_section_ends",
    "C35_missing_head",
    "C35_leading_blank_refuted",
    "C35_trailing_blank_refuted",
    "C35_no_material_refuted"
   ],
   "note": "Findings: blank lines before the head become the head; ignore_send_records rejects trailing blank lines; a tape without material and head."
  },
  {
   "property": "C36",
   "status": "proved",
   "theorems": [
    "C36_same_data",
    "C36_no_failure",
    "C36_positions",
    "C36_empty_refuted",
    "C36_gap_refuted"
   ],
   "note": "conversion to lists is specified element by element and total without empty dictionaries; empty dictionaries raise ValueError and gaps become None (refuted witnesses); positions used when writing from lists"
  },
  {
   "property": "C37",
   "status": "partial",
   "theorems": [
    "C37_get_after_set",
    "C37_others_kept",
    "C37_failed_set",
    "C37_set_succeeds",
    "C37_exists",
    "C37_remove",
    "C37_remove_succeeds",
    "C37_remove_list_refuted",
    "C37_empty_path_refuted",
    "C37_failed_leaves_refuted"
   ],
   "note": "proved for setting in both array modes, failing calls, existence, removal from dictionaries; refuted for removal from lists, the empty path, and what a failing call leaves"
  },
  {
   "property": "C38",
   "status": "proved",
   "theorems": [
    "C38_constructed",
    "C38_string",
    "C38_unambiguous",
    "C38_sequence",
    "C38_number",
    "C38_brackets",
    "C38_concatenation",
    "C38_mixed"
   ],
   "note": "ASCII names"
  },
  {
   "property": "C39",
   "status": "partial",
   "theorems": [
    "C39_compares_prefixes",
    "C39_same_length_partial",
    "C39_equal_refuted",
    "C39_transitive_refuted"
   ],
   "note": "true for paths of equal length; refuted in general: a path equals its prefixes and equality is not transitive"
  },
  {
   "property": "C40",
   "status": "partial",
   "theorems": [
    "C40_get",
    "C40_set",
    "C40_assignment",
    "C40_delete",
    "C40_variable_get",
    "C40_variable_set",
    "C40_delete_path_refuted",
    "C40_path_refuted"
   ],
   "note": "objects are values in the model; reading, setting, deleting, EndfVariable; refuted: deletion with an EndfPath, path attribute of nested views"
  },
  {
   "property": "C41",
   "status": "proved",
   "theorems": [
    "C41_decides",
    "C41_fails",
    "C41_reflexive",
    "C41_infinity_refuted",
    "C41_symmetric_refuted"
   ],
   "note": "result and list of differences decide agreement as specified (same), exceptions with fail_on_diff, reflexive for finite data; infinities differ from themselves and the tolerance is asymmetric (refuted witnesses)"
  },
  {
   "property": "C42",
   "status": "partial",
   "theorems": [
    "C42_detects",
    "C42_transparent",
    "C42_unread_refuted",
    "C42_nested_list_refuted",
    "C42_delete_refuted"
   ],
   "note": "the check is characterised exactly for all histories of reads and internal assignments; refuted: arrays no element of which is read and lists within lists are not checked. That the interpreter's reads are the elements written is not modelled."
  },
  {
   "property": "C43",
   "status": "partial",
   "theorems": [
    "C43_own_lines",
    "C43_rewritten",
    "C43_rewritten_file",
    "C43_few_lines_refuted",
    "C43_directory",
    "C43_file",
    "C43_not_counted_refuted"
   ],
   "note": "Rows, NXC, MOD and counts proved for every file with MF1/MT451; with at least five lines in the description the MF1/MT451 section rewritten with the shipped recipe has the number of lines its own entry says (C43_own_lines), and the entries of the rewritten file are those of its sections (C43_rewritten, C43_rewritten_file). Refuted: fewer than five description lines give a wrong own entry (C43_few_lines_refuted), and without MF1/MT451 in the lines NXC is too small."
  },
  {
   "property": "C44",
   "status": "proved",
   "theorems": [
    "C44_pendf_refuted",
    "C44_get",
    "C44_set",
    "C44_lines",
    "C44_insert",
    "C44_trimmed_refuted",
    "C44_insert_empty_refuted"
   ],
   "note": "set/get/insert with NWD and all other entries; long lines are not trimmed and a final empty line is lost on insertion at the end (refuted witnesses); in the PENDF flavour NWD counts five lines too many and the section cannot be written (C44_pendf_refuted)"
  },
  {
   "property": "C45",
   "status": "proved",
   "theorems": [
    "C45_sections",
    "C45_locate",
    "C45_values",
    "C45_locate_all_refuted",
    "C45_json",
    "C45_int_keys_refuted",
    "C45_lists_refuted"
   ],
   "note": "listing partitions the sections; locate characterised exactly, it misses keys below a dictionary that has the key (refuted witness); key conversion after JSON restores the data up to order, except inside lists and for dictionaries with int keys (refuted witnesses)"
  },
  {
   "property": "C46",
   "status": "partial",
   "theorems": [
    "C46_recent",
    "C46_restored_partial",
    "C46_restored_refuted",
    "C46_last_entry"
   ],
   "note": "queue shows the last min(n,capacity) records for all histories; after restoring a saved state it is right if the log did not wrap (partial) and wrong otherwise (refuted witness); the last entry survives shorter lookaheads"
  },
  {
   "property": "C47",
   "status": "partial",
   "theorems": [
    "C47_lookup",
    "C47_find",
    "C47_cache",
    "C47_interrupted",
    "C47_interrupted_refuted"
   ],
   "note": "Lookup precedence is proved for parse (C47_lookup) and the cache for all undisturbed histories; after interruptions a wrong recipe is never returned, but the recipe may be unavailable for ever (C47_interrupted_refuted), so the full claim is false. md5 collisions and pickle are parameters with stated hypotheses."
  },
  {
   "property": "C48",
   "status": "partial",
   "theorems": [
    "C48_no_overwrite",
    "C48_writes",
    "C48_failed_write",
    "C48_replace",
    "C48_modify",
    "C48_modified",
    "C48_rejected",
    "C48_no_backup_refuted",
    "C48_failed_write_refuted",
    "C48_failed_command_refuted",
    "C48_race_refuted",
    "C48_shared_backup_refuted"
   ],
   "note": "Proved for all disks and all points of interruption with backups and without overwrite. False without backups, for a failing C++ write with overwrite, for two processes writing the same new file, and the file may be missing under its own name after a failing command (the refuted theorems). Windows is not modelled."
  },
  {
   "property": "C49",
   "status": "partial",
   "theorems": [
    "C49_paths_partial",
    "C49_matches_partial",
    "C49_two_wildcards_refuted",
    "C49_index_refuted",
    "C49_alternative_refuted"
   ],
   "note": "paths with at most one wildcard, or two with one first; false for other patterns with two wildcards (refuted); out-of-range list indices raise instead of not matching and an alternative without instances defeats the query (refuted). The grammar of queries is not modelled."
  },
  {
   "property": "C50",
   "status": "partial",
   "theorems": [
    "C50_selection",
    "C50_integer_field",
    "C50_integer_field_refuted",
    "C50_integer_rejection_refuted",
    "C50_control_numbers",
    "C50_float_field",
    "C50_float_range_refuted",
    "C50_float_rejection_refuted",
    "C50_data_line",
    "C50_send",
    "C50_fend",
    "C50_mend_tend",
    "C50_send_keep_E_refuted",
    "C50_send_noexp_refuted",
    "C50_wide_MAT_refuted",
    "C50_float_exponent_refuted",
    "C50_verbatim",
    "C50_verbatim_number_refuted",
    "C50_file",
    "C50_unregistered_refuted",
    "C50_float_list",
    "C50_int_list",
    "C50_int_list_refuted",
    "C50_empty_list_refuted",
    "C50_float_text",
    "C50_decimal_text"
   ],
   "note": "Selection, integer and real number fields, control columns, prepared lines, end records, sections kept as lines and the order of whole files are proved against the Python model; C50_file takes the generated functions of the recipes as parameters (they are the subject of C59 to C62). Refuted outside the common grammar: underscores and integers beyond 32 bits, numbers out of the range of doubles, keep_E and prefer_noexp in end records, MAT numbers with five digits, line numbers beyond 99999, three-digit exponents containing a zero, sections without recipe."
  },
  {
   "property": "C51",
   "status": "partial",
   "theorems": [
    "C51_solution_partial",
    "C51_integers_partial",
    "C51_same_as_python_partial",
    "C51_recipes",
    "C51_wrong_refuted",
    "C51_recursion_refuted",
    "C51_empty_refuted",
    "C51_mf32_refuted",
    "C51_truncated_refuted"
   ],
   "note": "Proved for all expressions on which the solver does not put a removed factor back (decidable; every field of the package recipes is checked in C51_recipes): unique exact solution, the C++ integer value, agreement with the Python reader. The full statement is false: C51_wrong_refuted, C51_recursion_refuted, C51_empty_refuted, C51_mf32_refuted, C51_truncated_refuted. Missing: equations with modulo, a variable with several indices in one field."
  },
  {
   "property": "C52",
   "status": "proved",
   "theorems": [
    "C52_records_placed",
    "C52_formats",
    "C52_wrong_dictionary"
   ],
   "note": "reading: for every recipe; the numbers on continuation lines of a record are not examined by the code"
  },
  {
   "property": "C53",
   "status": "proved",
   "theorems": [
    "C53_values_taken"
   ],
   "note": "LIST records in read mode, outside of a lookahead"
  },
  {
   "property": "C54",
   "status": "proved",
   "theorems": [
    "C54_formats",
    "C54_no_section_lost",
    "C54_same_elsewhere",
    "C54_section_numbers",
    "C54_mf32_refuted"
   ],
   "note": "the four dictionaries of the package"
  },
  {
   "property": "C55",
   "status": "proved",
   "theorems": [
    "C55_section_signed",
    "C55_control_columns",
    "C55_second_mat_refuted"
   ],
   "note": "For recipes with one SEND, at the end (all recipes of the package except the tape head, which has none), and dictionaries without working keys in which MAT occurs once; with two MAT entries it is refuted."
  },
  {
   "property": "C56",
   "status": "partial",
   "theorems": [
    "C56_file_round_trip_partial"
   ],
   "note": "For files whose sections satisfy the conditions of C31 (27 recipes and the tape head) or are verbatim without recipe. Missing: the recipes missing in C31."
  },
  {
   "property": "C57",
   "status": "proved",
   "theorems": [
    "C57_reading",
    "C57_reading_strict",
    "C57_writing",
    "C57_writing_strict",
    "C57_no_abbreviations",
    "C57_recipes",
    "C57_recipes_strict",
    "C57_extra_entry_refuted"
   ],
   "note": "Exact equality of results for recipes in which names of abbreviations are used for nothing else (mf31, mf33, pendf 2/152, 2/153); otherwise equality or AbbreviationNameCollisionError. A dictionary with an additional entry of that name cannot be written (refuted). MF32 uses an abbreviation with '?' and is outside."
  },
  {
   "property": "C58",
   "status": "proved",
   "theorems": [
    "C58_tab2_read",
    "C58_tab1_read",
    "C58_checked_lines",
    "C58_checked_send",
    "C58_lines_refuted",
    "C58_tab2_write",
    "C58_tab1_write",
    "C58_empty_table_refuted",
    "C58_text_kept",
    "C58_blank_text_refuted",
    "C58_check_sound",
    "C58_check_literal",
    "C58_check_refuted"
   ],
   "note": "Conditions as stated; the exceptions are refuted theorems (empty tables, blank kept texts, control numbers of continuation lines in Python, zero mismatches of variables). Texts of real numbers are a hypothesis of C58_tab1_write; C50_float_text describes those of C++."
  },
  {
   "property": "C59",
   "status": "partial",
   "theorems": [
    "C59_same_dictionary",
    "C59_related_dictionaries",
    "C59_copied_lines",
    "C59_missing_head",
    "C59_second_material",
    "C59_end_records",
    "C59_materials_refuted",
    "C59_no_recipe_refuted",
    "C59_no_recipe_empty_refuted",
    "C59_no_recipe_first_refuted",
    "C59_truncated_refuted",
    "C59_trailing_blank_refuted",
    "C59_validate_refuted",
    "C59_order_refuted",
    "C59_twice_refuted"
   ],
   "note": "proved for one-material tapes with a recipe for each section and agreeing recipes; copied lines and refusals for all files; the conditions are needed (refuted theorems)"
  },
  {
   "property": "C60",
   "status": "proved",
   "theorems": [
    "C60_same_array",
    "C60_same_list",
    "C60_refused_order",
    "C60_loops",
    "C60_prepared_rows",
    "C60_gap_refuted",
    "C60_downward_refuted",
    "C60_minus_one_refuted",
    "C60_empty_row_refuted",
    "C60_same_matrix",
    "C60_columns",
    "C60_partial_matrix_refuted",
    "C60_empty_matrix_refuted",
    "C60_strict_triangle_refuted",
    "C60_same_sections",
    "C60_same_sections_one",
    "C60_sections_gap_refuted"
   ],
   "note": "For assignments in order, which is also necessary for compiled parsers to accept them; the differences outside of these conditions are the refuted theorems. Index shifters only with arrays as dictionaries."
  },
  {
   "property": "C61",
   "status": "proved",
   "theorems": [
    "C61_whole_files_same",
    "C61_compiled_recipe_same",
    "C61_stops_behind_send",
    "C61_tape_head_same",
    "C61_shipped_recipes_same",
    "C61_read_again_refuted",
    "C61_empty_list_refuted",
    "C61_range_text_refuted",
    "C61_stop_refuted",
    "C61_text_numbers_refuted"
   ],
   "note": "Generated C++ function of a recipe against the interpreter, for recipes in the modelled class (12 of the 44 shipped ones as they are, with the tape head), and whole files; arrays with two indices, equations in fields, lookahead, TEXT within a section and INTG are outside."
  },
  {
   "property": "C62",
   "status": "proved",
   "theorems": [
    "C62_sections_same",
    "C62_sections_padding",
    "C62_tape_head_same",
    "C62_whole_files_same",
    "C62_shipped_recipes_same",
    "C62_list_padding_refuted",
    "C62_empty_list_refuted",
    "C62_integer_value_refuted",
    "C62_short_text_refuted"
   ],
   "note": "Generated C++ writer of a recipe against the interpreter in write mode, for recipes in the modelled class (12 of the 44 shipped ones, with the tape head), and whole files; options keep_E and prefer_noexp off; numbers are compared by the text of the two formatters (C58); the same recipes as in C61 are outside."
  },
  {
   "property": "C63",
   "status": "partial",
   "theorems": [
    "C63_set",
    "C63_width",
    "C63_refused",
    "C63_last",
    "C63_files_refuted"
   ],
   "note": "What is set, what is kept and that the last call counts are proved for every description (C63_set, C63_width, C63_refused, C63_last). Refuted for files read with the ENDF-6 recipes, where the third line of text is not in the description and the numbers have changed when the exception is raised (C63_files_refuted)."
  },
  {
   "property": "C64",
   "status": "proved",
   "theorems": [
    "C64_framing",
    "C64_parse",
    "C64_nofail",
    "C64_cut",
    "C64_cut_parse",
    "C64_cut_line",
    "C64_columns_refuted",
    "C64_empty_refuted",
    "C64_ignore_refuted"
   ],
   "note": "Prefixes of lines and cuts within a line, all options, selections and recipes (C64_cut, C64_cut_parse, C64_cut_line). Which exceptions occur: C64_framing, C64_parse, C64_nofail. The exceptions named in the statement do occur: C64_columns_refuted, C64_empty_refuted, C64_ignore_refuted show that the stronger claim (exceptions of the package only, ignore_send_records included) is false."
  },
  {
   "property": "C65",
   "status": "partial",
   "theorems": [
    "C65_options_read",
    "C65_options_write",
    "C65_options_python",
    "C65_options_same",
    "C65_unknown",
    "C65_lines_written",
    "C65_lines_parsed",
    "C65_write_parse",
    "C65_files_read_same",
    "C65_files_written_same",
    "C65_positions_refuted",
    "C65_names_refuted",
    "C65_readlines_refuted"
   ],
   "note": "Options and texts completely (C65_options_*, C65_unknown, C65_lines_*, C65_write_parse); whole files as far as C61 and C62 cover them (C65_files_read_same, C65_files_written_same). array_type=list is passed on but the functions with lists as arrays are not modelled. C65_positions_refuted, C65_names_refuted and C65_readlines_refuted show that the exceptions named in the statement exist."
  },
  {
   "property": "C66",
   "status": "proved",
   "theorems": [
    "C66_options",
    "C66_backend",
    "C66_fuzzy_refuted",
    "C66_replace_options",
    "C66_show",
    "C66_show_everything_refuted",
    "C66_replace_path",
    "C66_replace_rest",
    "C66_replace_section",
    "C66_other_material_refuted"
   ],
   "note": "Options for both classes (C66_options, C66_backend, C66_replace_options); show and replace with the Python parser (C66_show, C66_replace_path, C66_replace_rest, C66_replace_section; for the compiled one see C59, C61, C62). argparse and the printed text are not modelled. The exceptions of the statement are C66_show_everything_refuted and C66_other_material_refuted; C66_fuzzy_refuted: the option is listed as supported by the compiled parser, but switches to the Python parser."
  },
  {
   "property": "C67",
   "status": "proved",
   "theorems": [
    "C67_validate",
    "C67_validate_summary",
    "C67_validate_good",
    "C67_summary_refuted",
    "C67_validate_cut",
    "C67_no_files_refuted",
    "C67_match",
    "C67_match_good",
    "C67_compare",
    "C67_compare_self",
    "C67_compare_order_refuted"
   ],
   "note": "With the Python parser: C67_validate, C67_validate_summary (no lookahead in the recipes), C67_validate_good and C67_match_good (any recipes), C67_validate_cut, C67_match, C67_compare, C67_compare_self. glob and the reading of files are parameters; the printed text is not modelled except for the status of the files. The exceptions of the statement are C67_summary_refuted, C67_no_files_refuted and C67_compare_order_refuted."
  },
  {
   "property": "C68",
   "status": "proved",
   "theorems": [
    "C68_compare",
    "C68_text",
    "C68_order",
    "C68_transitive",
    "C68_new",
    "C68_large_refuted",
    "C68_int",
    "C68_no_arithmetic",
    "C68_div",
    "C68_div_refuted",
    "C68_lists"
   ],
   "note": "Comparisons of EndfFloat on either side with ints (up to 2^53), floats and EndfFloats by value; total order; int(); arithmetic refused; int division exact below 2^53; lists element by element. Refuted for larger ints."
  }
 ]
}