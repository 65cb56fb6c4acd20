{"id": "C01", "title": "Verbatim sections survive write then parse", "statement": "If a dictionary holds MF/MT sections as lists of ENDF-6 lines whose control columns carry that MF and MT and one common MAT (plus a tape head under MF=0/MT=0), then parse(write(d), include=()) returns a dictionary with exactly the same MF/MT keys and, up to the line-number columns, exactly the same lines in the same order.", "quantifier": "all dictionaries of verbatim sections of any number and length, all line contents, both settings of include_linenum and zero_as_blank", "why_tests_cant": "the number of sections, their lengths and the 66 free columns of each line are unbounded", "anchors": ["endf_parserpy/interpreter/endf_parser.py: EndfParser.write, EndfParser.parse", "endf_parserpy/interpreter/endf_utils.py: split_sections, add_linenumbers_to_section, write_send, write_fend, write_mend, write_tend"]}
{"id": "C02", "title": "Splitting a tape loses and invents nothing", "statement": "Whenever a tape is accepted (blank lines and missing SEND records not tolerated), every input line is either the tape head, a line of exactly one returned section, or a section-end record; each section contains its lines in file order, and each line stored under MF/MT carries these numbers in its control columns.", "quantifier": "all lists of input lines that are accepted", "why_tests_cant": "a test fixes a file; silently dropped or misfiled lines only matter for the file it was not run on", "anchors": ["endf_parserpy/interpreter/endf_utils.py: split_sections, read_ctrl"]}
{"id": "C03", "title": "Only well nested tapes are accepted", "statement": "With the strict default options a tape is accepted only if it is: one tape head; then materials, each a run of files closed by one MEND; each file a run of sections of one MF closed by FEND; each section a non-empty run of lines of one MAT/MF/MT closed by SEND; then TEND; then nothing but blank lines. Section-end records must have all-zero fields.", "quantifier": "all lists of input lines", "why_tests_cant": "acceptance is a predicate over all malformed inputs, which cannot be enumerated", "anchors": ["endf_parserpy/interpreter/endf_utils.py: split_sections, read_send"]}
{"id": "C04", "title": "Written tapes have the SEND/FEND/MEND/TEND skeleton", "statement": "write() emits sections in ascending (MF, MT) order, exactly one SEND after every section with MF>0, exactly one FEND after each MF>0 with some output, nothing of the kind for the tape head, then exactly one MEND and one TEND.", "quantifier": "all dictionaries and include/exclude selections", "why_tests_cant": "quantifies over every combination of present and selected sections", "anchors": ["endf_parserpy/interpreter/endf_parser.py: EndfParser.write"]}
{"id": "C05", "title": "Every written line has exactly 80 (or 75) columns", "statement": "Every line returned by write() has exactly 6*width+9+5 characters with include_linenum=True and exactly 6*width+9 without, provided the integers fit into their fields and verbatim lines are at least 6*width+9 wide.", "quantifier": "all field values in range, all section sizes, all option settings", "why_tests_cant": "one over-long number anywhere shifts all later columns; the value space is unbounded", "anchors": ["endf_parserpy/interpreter/endf_utils.py: write_cont, write_endf_numbers, write_text, write_ctrl, add_linenumbers_to_section", "endf_parserpy/interpreter/fortran_utils.py: float2fortstr"]}
{"id": "C06", "title": "Line numbers are consecutive and wrap", "statement": "In each written section the five line-number columns count 1,2,3,... and restart at 1 after 99999 (the tape head starts at 0); the SEND record carries 99999 and FEND/MEND/TEND carry 0.", "quantifier": "sections of any length", "why_tests_cant": "wrap-around needs sections longer than 99999 lines and must hold for every further multiple", "anchors": ["endf_parserpy/interpreter/endf_utils.py: add_linenumbers_to_section"]}
{"id": "C07", "title": "include/exclude select exactly the requested sections", "statement": "With exclude given, a section MF/MT is handed over unparsed iff MF or (MF,MT) is listed; without exclude and with include given it is unparsed iff neither MF nor (MF,MT) is listed; otherwise every section with a recipe is parsed. Unselected sections come back as their raw lines, and write() omits exactly the unselected ones.", "quantifier": "all MF, MT, all include/exclude arguments", "why_tests_cant": "decision table over unbounded integers and lists of mixed shapes", "anchors": ["endf_parserpy/interpreter/endf_parser.py: EndfParser.should_skip_section, parse, write"]}
{"id": "C08", "title": "Parsing a section does not depend on the other sections", "statement": "The value stored under MF/MT after parse() is a function of the lines of this section, the recipe and the parser options alone; excluding or including other sections, or having parsed other files with the same parser object before, does not change it. Whatever was parsed before, what a new parser object accepts is accepted with the same result.", "quantifier": "all tapes, selections, and all histories of earlier calls on the same parser object", "why_tests_cant": "quantifies over call histories; state leaks only show after particular earlier inputs", "anchors": ["endf_parserpy/interpreter/endf_parser.py: EndfParser.parse, reset_parser_state, set_parser_state", "endf_parserpy/interpreter/meta_control_utils.py: perform_lookahead, undo_lookahead_changes"]}
{"id": "C09", "title": "Control columns round trip", "statement": "Writing MAT/MF/MT into columns 67-75 and reading them back gives the same numbers for every MAT, MF, MT that fit 4, 2 and 3 columns; wider numbers are not detected and corrupt the neighbouring fields.", "quantifier": "all integers MAT, MF, MT", "why_tests_cant": "unbounded integer ranges with a boundary at each field width", "anchors": ["endf_parserpy/interpreter/endf_utils.py: read_ctrl, write_ctrl"]}
{"id": "C10", "title": "Integer fields round trip", "statement": "An integer of at most `width` characters written into a field is read back as the same integer, whatever stands in the neighbouring fields; a blank field reads as 0; any field that is neither blank nor an integer is rejected.", "quantifier": "all integers and all field strings", "why_tests_cant": "unbounded values", "anchors": ["endf_parserpy/interpreter/fortran_utils.py: read_fort_int", "endf_parserpy/interpreter/endf_utils.py: write_cont, read_cont"]}
{"id": "C11", "title": "Fortran float notation is read correctly", "statement": "Every field consisting of optional spaces, a sign, digits with at most one decimal point, and an exponent written as E+5, E5, e-5, or just +5/-5 is read as the double nearest to that decimal number; with accept_spaces any spaces inside are ignored, without it inner spaces are an error; a blank field reads as 0.0.", "quantifier": "all strings of the Fortran number grammar", "why_tests_cant": "infinitely many digit strings and space placements", "anchors": ["endf_parserpy/interpreter/fortran_utils.py: fortstr2float"]}
{"id": "C12", "title": "A written float always fills its field exactly", "statement": "For every finite number in the normal double range and every combination of abuse_signpos, skip_intzero, prefer_noexp and keep_E the written string has exactly `width` characters.", "quantifier": "all finite doubles and option combinations", "why_tests_cant": "2^64 doubles; the rounding-up case 9.9999999 -> 10.000000 is hit by few of them", "anchors": ["endf_parserpy/interpreter/fortran_utils.py: float2expformstr, float2basicnumstr, float2fortstr"]}
{"id": "C13", "title": "Float output is accurate and stable", "statement": "Reading back a written float yields a number within half a unit of the last written digit, and writing that number again yields the same string (no drift over repeated read/write cycles).", "quantifier": "all doubles in the normal range", "why_tests_cant": "rounding behaviour has to hold at every one of 2^64 values", "anchors": ["endf_parserpy/interpreter/fortran_utils.py: float2expformstr, fortstr2float"]}
{"id": "C14", "title": "prefer_noexp never loses accuracy", "statement": "With prefer_noexp=True the written string is at least as close to the number as the exponential form would be.", "quantifier": "all numbers and option settings", "why_tests_cant": "comparison of two roundings over all doubles", "anchors": ["endf_parserpy/interpreter/fortran_utils.py: float2fortstr"]}
{"id": "C15", "title": "preserve_value_strings reproduces fields verbatim", "statement": "With preserve_value_strings=True a non-blank float field that was read is written back with exactly the same characters.", "quantifier": "all field strings of the field width that are valid numbers", "why_tests_cant": "infinitely many spellings of the same number", "anchors": ["endf_parserpy/interpreter/fortran_utils.py: fortstr2float, float2fortstr", "endf_parserpy/utils/math_utils.py: EndfFloat"]}
{"id": "C16", "title": "Number arrays of any length round trip", "statement": "A list of n integers or floats written as the body of a LIST/TAB record occupies exactly ceil(n/6) lines of six fields, all elements come back in order, and the reader consumes exactly these lines.", "quantifier": "all n and all values", "why_tests_cant": "unbounded length; boundary at every multiple of six", "anchors": ["endf_parserpy/interpreter/endf_utils.py: write_endf_numbers, read_endf_numbers, write_list, read_list"]}
{"id": "C17", "title": "CONT, HEAD and DIR records round trip", "statement": "Reading a written CONT, HEAD or DIR record returns the same six (four) fields and the same control numbers.", "quantifier": "all field values that fit", "why_tests_cant": "unbounded values", "anchors": ["endf_parserpy/interpreter/endf_utils.py: read_cont, write_cont, read_dir, write_dir"]}
{"id": "C18", "title": "LIST records round trip and check their length", "statement": "Reading a written LIST record returns the same fields and values and stops right after it; writing fails unless the N1 field equals the number of values.", "quantifier": "all values and all list lengths", "why_tests_cant": "unbounded length", "anchors": ["endf_parserpy/interpreter/endf_utils.py: read_list, write_list"]}
{"id": "C19", "title": "TAB1 and TAB2 records round trip", "statement": "Reading a written TAB1 (TAB2) record returns the same four (five) CONT fields and the same NBT, INT, X, Y arrays and stops right after it; NR and NP are always the array lengths.", "quantifier": "all tables with at least one interpolation range (and point)", "why_tests_cant": "unbounded table sizes", "anchors": ["endf_parserpy/interpreter/endf_utils.py: read_tab1, write_tab1, read_tab2, write_tab2, read_tab1_body_lines, write_tab1_body_lines"]}
{"id": "C20", "title": "Every readable table is writable", "statement": "A TAB1/TAB2 record that can be read can be written again, in particular when NR=0 or NP=0.", "quantifier": "all TAB records including empty ones", "why_tests_cant": "boundary case outside the shipped test files", "anchors": ["endf_parserpy/interpreter/endf_utils.py: write_endf_numbers, write_tab1, write_tab2"]}
{"id": "C21", "title": "INTG records round trip", "statement": "For NDIGIT in 2..6 reading a written INTG record returns the same II, JJ and KIJ array and the control columns are not touched.", "quantifier": "all NDIGIT, all entries that fit", "why_tests_cant": "all value combinations and digit counts", "anchors": ["endf_parserpy/interpreter/endf_utils.py: read_intg, write_intg"]}
{"id": "C22", "title": "TEXT records round trip", "statement": "The 66 text columns written are the 66 read back; splitting them into the fields of a recipe and joining them again is the identity, and strings of the wrong length are rejected on writing.", "quantifier": "all strings and all field length specifications", "why_tests_cant": "unbounded strings and layouts", "anchors": ["endf_parserpy/interpreter/endf_utils.py: read_text, write_text", "endf_parserpy/interpreter/endf_mapping_core.py: map_text_record_helper"]}
{"id": "C23", "title": "A linear field expression is inverted exactly", "statement": "If a record field of a recipe is an expression with one unknown variable, the value assigned on reading makes the expression evaluate to the number found in the file, so that writing reproduces it (integers; also any exact arithmetic).", "quantifier": "all expressions, all variable assignments, all field numbers", "why_tests_cant": "expressions are arbitrary trees", "anchors": ["endf_parserpy/interpreter/endf_mapping_utils.py: eval_expr, varvalue_expr_conversion, eval_expr_without_unknown_var"]}
{"id": "C24", "title": "Inconsistent repeated values are detected", "statement": "If a field's expression has no unknown variable, parsing succeeds only if the number in the file equals (is close to, with fuzzy_matching) the expected one, or the mismatch is covered by ignore_zero_mismatch (expected 0), ignore_number_mismatch (number marked ?) or ignore_varspec_mismatch (variable marked ?).", "quantifier": "all records, expressions, values and option settings", "why_tests_cant": "decision over unbounded values times option settings", "anchors": ["endf_parserpy/interpreter/endf_mapping_core.py: map_recorddic_to_datadic"]}
{"id": "C25", "title": "Leniency options are monotone", "statement": "Switching any ignore_* mismatch option from False to True never turns a successful parse into a failure and never changes its result.", "quantifier": "all recipes, inputs and option settings", "why_tests_cant": "relates two runs over all inputs", "anchors": ["endf_parserpy/interpreter/endf_mapping_core.py: map_recorddic_to_datadic", "endf_parserpy/interpreter/endf_parser.py: run_instruction"]}
{"id": "C26", "title": "Loops execute exactly the stated index range", "statement": "A recipe loop `for i=a to b` executes its body for i=a,a+1,...,b in this order and not at all if b<a; the loop variable is not visible afterwards; nesting two loops over the same variable is rejected.", "quantifier": "all bounds (including expressions) and bodies", "why_tests_cant": "unbounded iteration counts", "anchors": ["endf_parserpy/interpreter/meta_control_utils.py: cycle_for_loop"]}
{"id": "C27", "title": "Conditions mean what they say", "statement": "An if/elif/else clause executes the first branch whose condition holds, where and/or/relations have their usual meaning and a relation mentioning an undefined variable counts as false; at most one branch is executed.", "quantifier": "all boolean expressions and variable assignments", "why_tests_cant": "conditions are arbitrary trees", "anchors": ["endf_parserpy/interpreter/meta_control_utils.py: eval_if_condition, determine_truthvalue, evaluate_if_clause"]}
{"id": "C28", "title": "Lookahead leaves no trace", "statement": "Evaluating an if condition with a lookahead option changes neither the data read so far, nor the read position, nor any parser option, whatever the lookahead encounters.", "quantifier": "all bodies, lookahead counts and inputs, including failing ones", "why_tests_cant": "requires considering every way the speculative run can end", "anchors": ["endf_parserpy/interpreter/meta_control_utils.py: perform_lookahead, undo_lookahead_changes, evaluate_if_statement"]}
{"id": "C29", "title": "Sections scope their variables", "statement": "Variables assigned inside a recipe section end up in the section's own sub-dictionary, names are resolved from the innermost section outwards when lookup is allowed, and after the section the outer variables are unchanged.", "quantifier": "all nestings and names", "why_tests_cant": "unbounded nesting", "anchors": ["endf_parserpy/interpreter/meta_control_utils.py: open_section, close_section", "endf_parserpy/interpreter/endf_mapping_utils.py: get_varval"]}
{"id": "C30", "title": "A parsed section has been consumed completely", "statement": "If a recipe ends with SEND and parse() returns a dictionary for a section, then the records of the recipe covered all lines of the section: none was skipped and none was read twice.", "quantifier": "all recipes and inputs", "why_tests_cant": "must hold for every accepted input", "anchors": ["endf_parserpy/interpreter/endf_parser.py: EndfParser.parse, process_send_line", "endf_parserpy/interpreter/endf_utils.py: read_send, skip_blank_lines"]}
{"id": "C31", "title": "write followed by parse returns the data", "statement": "For a recipe in which every variable occurring in a condition or loop bound is defined by an earlier field, if write() of a section dictionary succeeds then parse() of the written lines succeeds and yields, for every variable the recipe mentions, the value in the dictionary (floats: as far as they are printed).", "quantifier": "all recipes of the fragment, all dictionaries that can be written", "why_tests_cant": "composition of all record types, loops, conditions and nested sections of any size", "anchors": ["endf_parserpy/interpreter/endf_parser.py: run_instruction, process_*", "endf_parserpy/interpreter/endf_mapping_core.py: map_record_helper"]}
{"id": "C32", "title": "write needs only the data and reports what is missing", "statement": "write() either returns lines for the whole section or raises; if a variable required by an executed record is absent from the dictionary it raises VariableNotFoundError rather than writing a default.", "quantifier": "all recipes and dictionaries", "why_tests_cant": "all possible omissions", "anchors": ["endf_parserpy/interpreter/endf_mapping_core.py: map_datadic_to_recorddic", "endf_parserpy/interpreter/endf_mapping_utils.py: eval_expr_without_unknown_var"]}
{"id": "C33", "title": "write does not alter the caller's dictionary", "statement": "After write() returns or raises, the dictionary passed by the user holds the same data as before.", "quantifier": "all dictionaries, also when writing fails half way", "why_tests_cant": "all failure points", "anchors": ["endf_parserpy/interpreter/endf_parser.py: EndfParser.write", "endf_parserpy/interpreter/meta_control_utils.py: initialize_working_vars, remove_working_vars, introduce_abbreviation, open_section"]}
{"id": "C34", "title": "nofail returns failed sections verbatim", "statement": "With nofail=True a section that cannot be parsed is returned as the list of its lines, so that write() reproduces it; no exception escapes for any content of a section.", "quantifier": "all tapes", "why_tests_cant": "all kinds of corruption", "anchors": ["endf_parserpy/interpreter/endf_parser.py: EndfParser.parse"]}
{"id": "C35", "title": "Blank lines and missing records are tolerated as documented", "statement": "With ignore_blank_lines=True inserting blank lines anywhere does not change the result of parse; with ignore_send_records=True removing section-end records does not change it; with ignore_missing_tpid=True a tape without head parses to the same sections.", "quantifier": "all tapes and all insertion/removal positions", "why_tests_cant": "all positions and subsets", "anchors": ["endf_parserpy/interpreter/endf_utils.py: split_sections, skip_blank_lines"]}
{"id": "C36", "title": "Dictionary and list arrays hold the same data", "statement": "array_type='list' yields the array_type='dict' result with every integer-keyed dictionary k0..k0+n-1 replaced by the list of its values in key order; element i of the list is the entry with key k0+i.", "quantifier": "all nested dictionaries", "why_tests_cant": "unbounded nesting and sizes", "anchors": ["endf_parserpy/interpreter/helpers.py: array_dict_to_list, list_set, list_setdefault, shift_indices"]}
{"id": "C37", "title": "EndfPath get after set", "statement": "After set(p, v) the value found under p is v, and values under paths that are not prefixes or extensions of p are unchanged; exists(p) tells whether get(p) succeeds; after remove(p) p no longer exists.", "quantifier": "all nested dictionaries/lists and all paths", "why_tests_cant": "unbounded nesting", "anchors": ["endf_parserpy/utils/accessories.py: EndfPath.get, set, exists, remove"]}
{"id": "C38", "title": "EndfPath notation is unambiguous", "statement": "Building a path from str(p) gives the same path; 'a/b[1,2]', 'a/b/1/2', nested tuples and concatenation with + denote the same path.", "quantifier": "all valid paths", "why_tests_cant": "unbounded paths", "anchors": ["endf_parserpy/utils/accessories.py: EndfPath.__init__, __str__, __add__, _expand_array_notation, _standardize_path_tuple, _validate_path"]}
{"id": "C39", "title": "EndfPath equality is equality of the element sequences", "statement": "p == q holds iff p and q have the same elements; in particular a path differs from its proper prefixes.", "quantifier": "all paths", "why_tests_cant": "quantifies over all pairs", "anchors": ["endf_parserpy/utils/accessories.py: EndfPath.__eq__"]}
{"id": "C40", "title": "EndfDict is a transparent view", "statement": "Reading, assigning, deleting and iterating through an EndfDict/EndfVariable has exactly the effect of the same operation on the underlying nested dictionary.", "quantifier": "all operation sequences", "why_tests_cant": "all interleavings of operations via view and raw dictionary", "anchors": ["endf_parserpy/utils/accessories.py: EndfObject, EndfDict, EndfVariable"]}
{"id": "C41", "title": "compare_objects decides equality within tolerance", "statement": "compare_objects(a, b, fail_on_diff=False) returns True iff a and b have the same shape and keys, equal strings and numbers within atol+rtol*|y|; it is reflexive for NaN-free data.", "quantifier": "all nested objects", "why_tests_cant": "unbounded nesting", "anchors": ["endf_parserpy/utils/debugging_utils.py: compare_objects, _compare_objects, smart_is_equal"]}
{"id": "C42", "title": "check_arrays detects data that was not written", "statement": "With check_arrays=True write() raises if some element of an array in the dictionary was not consumed by the recipe, and does not raise if all were.", "quantifier": "all dictionaries, nestings and access histories", "why_tests_cant": "all access orders", "anchors": ["endf_parserpy/utils/debugging_utils.py: TrackingDict, TrackingList"]}
{"id": "C43", "title": "update_directory describes the file", "statement": "After update_directory the directory lists every section of the file exactly once in ascending order with the exact number of lines write() produces for it, keeps the MOD numbers of sections that were already listed, and NXC is the number of entries.", "quantifier": "all files", "why_tests_cant": "all sets of sections", "anchors": ["endf_parserpy/utils/endf6_plumbing.py: update_directory"]}
{"id": "C44", "title": "Descriptions round trip", "statement": "get_description after set_description returns the text that was set (padded to 66 columns), NWD counts it, and insert_description inserts the new lines at the requested place leaving the others unchanged.", "quantifier": "all texts", "why_tests_cant": "unbounded texts", "anchors": ["endf_parserpy/utils/endf6_plumbing.py: get_description, set_description, insert_description"]}
{"id": "C45", "title": "Utilities partition and locate sections", "statement": "list_parsed_sections and list_unparsed_sections together list each MF/MT exactly once; locate(d, name) returns exactly the paths under which a key of this name is stored.", "quantifier": "all dictionaries", "why_tests_cant": "unbounded nesting", "anchors": ["endf_parserpy/utils/user_tools.py: list_unparsed_sections, list_parsed_sections, locate, sanitize_fieldname_types"]}
{"id": "C46", "title": "The record log shows the most recent records in order", "statement": "The log printed with an error shows the last min(n, capacity) records processed, oldest first, also after wrap-around and after restoring a saved state.", "quantifier": "all numbers of records and capacities", "why_tests_cant": "all wrap-around positions and histories", "anchors": ["endf_parserpy/interpreter/logging_utils.py: RingBuffer"]}
{"id": "C47", "title": "Recipes are looked up with documented precedence", "statement": "A section is parsed with the recipe for its MF/MT if there is one, else with the wildcard recipe of the MF, else left as raw lines; a recipe read from the cache equals the one compiled from the same source.", "quantifier": "all recipe dictionaries and cache contents", "why_tests_cant": "all cache histories including crashes while the cache is written", "anchors": ["endf_parserpy/interpreter/endf_recipe_utils.py: get_responsible_recipe_parsetree, get_recipe_parsetree, get_recipe_parsetree_dic"]}
{"id": "C48", "title": "Files are not lost or overwritten", "statement": "writefile without overwrite=True never touches an existing file; the command line tools that modify a file in place keep, at every point where the process may be interrupted, either the old file or its backup with the complete old content, and never overwrite an existing backup.", "quantifier": "all directory states and all crash points", "why_tests_cant": "all interruption points", "anchors": ["endf_parserpy/interpreter/endf_parser.py: writefile", "endf_parserpy/cli/cmd_utils.py: create_backup_file, atomic_rename", "endf_parserpy/cli/actions/*"]}
{"id": "C49", "title": "Query expressions select the described paths", "statement": "The match query matches a file iff there is an assignment of its wildcards that makes the boolean expression true.", "quantifier": "all queries and files", "why_tests_cant": "all trees and files", "anchors": ["endf_parserpy/utils/matching.py: endf_path_generator, eval_tree"]}
{"id": "C50", "title": "Python and C++ back ends agree on the framing, on fields and on lists of numbers", "statement": "The C++ templates select sections by the same rule, read an integer or float field, and a list of such fields over several lines, to the same numbers on every field the Python reader accepts in the common grammar, write section-end records and control columns identically, and write a real number with an error of at most half a unit of its last digit.", "quantifier": "all field strings, selections and control numbers", "why_tests_cant": "agreement of two programs on all inputs", "anchors": ["endf_parserpy/compiler/cpp_templates/module_header.hpp: should_parse_section", "endf_parserpy/compiler/cpp_templates/module_header_reading.hpp: endfstr2float, endfstr2int, cpp_read_custom_int_field", "endf_parserpy/compiler/cpp_templates/module_header_writing.hpp", "endf_parserpy/compiler/cpp_templates/module_header_reading.hpp: cpp_read_vec"]}
{"id": "C51", "title": "The compiler's equation solver assigns the right value", "statement": "For a field that is an arithmetic expression, the expression that the compiler generates for the unknown variable does not depend on that variable, and for all values of the other variables with which the field depends on it, it yields the one value with which the field equals the number read; with C++ integers it yields the value whenever there is one; it is the value that the Python parser assigns; otherwise the compiler reports that it cannot solve the equation.", "quantifier": "all expressions of the recipe language, all choices of the unknown variable, all values of the other variables and of the number read", "why_tests_cant": "tests compile the package recipes and read a few files; other expressions and values are not exercised", "anchors": ["endf_parserpy/compiler/expr_utils/equation_utils.py: solve_equation, get_varassign_from_expr", "endf_parserpy/compiler/expr_utils/node_trafos.py", "endf_parserpy/compiler/expr_utils/tree_trafos.py: normalize_exprtree, simplify_for_readability", "endf_parserpy/compiler/code_generator_core.py: generate_code_for_varassign"]}
{"id": "C52", "title": "Records are accepted only where their control numbers say so", "statement": "If parsing a section succeeds, every record that was read begins at a line whose MAT, MF and MT columns agree with the numbers that the recipe gives for a record (with the package recipes: the MF number of the section), or is the record that ends the section; a dictionary whose MF or MT differs from the place where it is stored is not written but reported.", "quantifier": "all recipes, sections, options and dictionaries", "why_tests_cant": "tests read well-formed files in which the control numbers are always right", "anchors": ["endf_parserpy/interpreter/endf_mappings.py: check_ctrl_spec", "endf_parserpy/interpreter/endf_parser.py: EndfParser.parse, EndfParser.write"]}
{"id": "C53", "title": "No value of a LIST record is lost or invented", "statement": "If a LIST record is read without an exception, each of its NPL values went to exactly one element of the recipe, in the order of the file, or was skipped as padding up to the end of a line; no value is left over and no element is filled without a value.", "quantifier": "all bodies of LIST records (elements, padding, nested loops), all values and states", "why_tests_cant": "the number and order of values depends on loop bounds read from the file", "anchors": ["endf_parserpy/interpreter/endf_mappings.py: map_list_dic", "endf_parserpy/interpreter/endf_parser.py: process_list_line"]}
{"id": "C54", "title": "ENDF flavours only change the sections they are meant to change", "statement": "get_recipe_dict accepts exactly the names of list_endf_flavors; every flavour has a recipe for each section that plain ENDF-6 has one for; outside of the sections it redefines it uses the ENDF-6 recipe; and the recipe found for a section describes that MF and MT (its records give these numbers or leave MT open).", "quantifier": "all format names and all MF, MT numbers", "why_tests_cant": "ranges over all MF, MT pairs and depends on the order of definitions in a shared dictionary", "anchors": ["endf_parserpy/endf_recipes/__init__.py: get_recipe_dict, list_endf_flavors", "endf_parserpy/endf_recipes/utils.py: defdic"]}
{"id": "C55", "title": "Every written line names its section", "statement": "Whatever the recipe, if write produces a section from a dictionary (in which MAT is stored once), every line of it carries, behind the six fields, the MAT of the dictionary and the MF and MT of the place where the dictionary is stored, and the section ends with one section-end record of this material and file; if the numbers fit their columns, these control numbers are read from the lines again.", "quantifier": "all recipes without inner SEND (all recipes of the package), all dictionaries, options and nestings of subsections", "why_tests_cant": "the control numbers are looked up anew for every record, through any number of enclosing subsections and in dictionaries supplied by the user", "anchors": ["endf_parserpy/interpreter/endf_utils.py: get_ctrl, write_ctrl, write_send", "endf_parserpy/interpreter/endf_parser.py: EndfParser.write"]}
{"id": "C56", "title": "A written file is read back as a whole", "statement": "If each section of a file is a dictionary that conforms to its recipe (for the recipes covered by C31) and whose numbers fit their columns, or a list of lines where there is no recipe, then write succeeds for the file as a whole, and parse of the result succeeds and returns exactly the same MF/MT sections: the dictionaries with the values as printed, the lists of lines with the same columns. Values that are not read back have no influence on the file.", "quantifier": "all files (any number and order of sections), both settings of zero_as_blank and nofail, all sufficiently strict parsing options", "why_tests_cant": "combines all sections of all files; depends on how section-end records, line numbers and the splitting of the file fit together", "anchors": ["endf_parserpy/interpreter/endf_parser.py: EndfParser.write, EndfParser.parse", "endf_parserpy/interpreter/endf_utils.py: split_sections, add_linenumbers_to_section, write_send"]}
{"id": "C57", "title": "Abbreviations in recipes are only abbreviations", "statement": "Reading or writing a section with a recipe that introduces abbreviations (NW := expression) has the same result, exceptions included, as with the recipe in which every use of the abbreviation is replaced by its expression and the introduction is dropped; the abbreviation never appears in the data. The only other outcome is AbbreviationNameCollisionError, which cannot occur when reading if the recipe uses the names of abbreviations for nothing else, and not when writing if moreover the dictionary has no such entries.", "quantifier": "all recipes in which each use of an abbreviation has one meaning (all recipes of the package but MF32), all tapes, all dictionaries, all options", "why_tests_cant": "ranges over all recipes, tapes and dictionaries; abbreviations interact with loops, conditionals, lookahead and nested sections", "anchors": ["endf_parserpy/interpreter/meta_control_utils.py: initialize_working_dic, introduce_abbreviation, finalize_working_dic", "endf_parserpy/interpreter/endf_mapping_utils.py: substitute_abbreviation, get_varval", "endf_parserpy/interpreter/endf_parser.py: process_abbreviation"]}
{"id": "C58", "title": "Tables, kept number texts and field checks of compiled parsers agree with the Python parser", "statement": "A table (TAB1 or TAB2 body with at least one interpolation range and one point, integers written as integers, real numbers in the range of doubles) that the Python parser reads is read by a compiled parser as the same numbers, with the same kept texts, and reading goes on at the same line; a table that the Python parser writes is written by a compiled writer as the same lines with the same control columns and line numbers, if the texts of the real numbers agree. With preserve_value_strings a field that was read is written back unchanged. With validate_control_records numbers come only from lines with the control numbers of the section. A field accepted by the check of the compiled parser is accepted by the Python parser, and for fields without variables both decide alike. Outside of these conditions they differ: empty tables, blank fields with kept text, zero mismatches of variables.", "quantifier": "all tables of any length, all lines, all options, all expected and actual numbers", "why_tests_cant": "lengths of tables, contents of fields, options and line numbers are unbounded; the two implementations are in different languages", "anchors": ["endf_parserpy/compiler/cpp_templates/module_header_reading.hpp: cpp_read_line, cpp_read_vec, read_tab1_body, read_tab2_body, cpp_validate_field, cpp_read_send", "endf_parserpy/compiler/cpp_templates/module_header_writing.hpp: write_tab1_body, write_tab2_body, cpp_write_field_EndfFloatCpp", "endf_parserpy/interpreter/endf_utils.py: read_tab1_body_lines, write_tab1_body_lines, read_endf_numbers", "endf_parserpy/interpreter/endf_mapping_core.py: map_record_helper"]}
{"id": "C59", "title": "A compiled parser reads whole files as the Python parser does", "statement": "Parsing a file with a compiled parser gives the dictionary that the Python parser gives, with the same MF/MT entries, parsed or kept as lines according to include and exclude, if the file is a tape with one material and its end records, each MF/MT occurs once, nothing follows the TEND record, there is a recipe for each section and the compiled recipes agree with the interpreted ones on the sections to be parsed. For any file, a section that a compiled parser keeps as lines consists of consecutive lines of the file with that MF and MT. A file that starts with a section, and one with a section after the MEND record, is rejected. Outside of these conditions the two parsers differ: several materials, sections without recipe (the first line is lost), truncated files, blank lines at the end, repeated sections, MF order, sections kept as lines while validating control records.", "quantifier": "all files, selections, options and recipe functions", "why_tests_cant": "files, numbers of sections and lines, and combinations of options are unbounded", "anchors": ["endf_parserpy/compiler/code_generator_parsing.py: generate_master_parsefun, _generate_check_end_records_fun", "endf_parserpy/compiler/code_generator_parsing_core.py: generate_parse_or_read_verbatim", "endf_parserpy/compiler/cpp_templates/module_header_reading.hpp: read_section_verbatim", "endf_parserpy/interpreter/endf_parser.py: EndfParser.parsefile, parse", "endf_parserpy/utils/endf6_plumbing.py: split_sections"]}
{"id": "C60", "title": "A compiled parser collects arrays as the Python parser does", "statement": "Assigning values to the places of an array with one or more indices, none negative, gives in a compiled parser the nested dictionary (or, with array_type list, the nested list) of the Python parser, and the same answers to whether a place has been read and what it holds, if at every level each new index is the first, already used, or one more than a used one; every other order raises an exception. Nested loops that are not empty keep that order. The same holds for matrices whose cells are all assigned and, with array_type dict, for arrays of sections with any contents. Outside of these conditions the two parsers differ: gaps and downward counting, index -1, rows without elements, matrices with cells left out, empty ranges or a shifted diagonal, and arrays of sections with gaps, where a compiled parser reads behind the end of a vector.", "quantifier": "all numbers of indices, all sequences of assignments, all loop bounds, matrix sizes and section contents", "why_tests_cant": "the number of indices, assignments and orders is unbounded", "anchors": ["endf_parserpy/compiler/cpp_types/cpp_type_nested_vector/definition.py: NestedVector", "endf_parserpy/compiler/cpp_types/cpp_type_nested_vector/assign.py: assign_exprstr_to_var", "endf_parserpy/compiler/cpp_types/cpp_type_matrix2d/definition.py: Matrix2d", "endf_parserpy/compiler/cpp_templates/index_shifter.hpp: IndexShifter", "endf_parserpy/interpreter/endf_mapping_utils.py: set_array_value, get_array_value", "endf_parserpy/interpreter/meta_control_utils.py: open_section", "endf_parserpy/interpreter/helpers.py: array_dict_to_list"]}
{"id": "C61", "title": "A compiled parser reads a section as the Python parser does", "statement": "If a compiled parser and the Python parser both accept a section, they return the same data: the same keys at every level, the same integers and lists, and the same real numbers with the same kept texts. This holds for every recipe of HEAD, CONT, DIR, TEXT, TAB1, TAB2, LIST and SEND records, loops, sections and conditions without lookahead, with numbers and variables of at most one index as fields (among them the shipped recipes of MF3, 9, 10, 13, 23, 27, MT451 and MT452), if a name of a section that its conditions or loops look up is not also a name of the sections around it, and for every section in which no variable without free index is read twice, no table or list is empty, interpolation ranges are written as integers and lines of text carry the numbers of the section. Whole files that both parsers accept give the same sections with the same data, if the parsed sections are of this kind. Outside of these conditions they differ: a value read twice is overwritten instead of compared, a list without elements takes one more line, an interpolation range written with exponent is read as another number, a stop instruction is ignored, and other numbers of a line of text are lost.", "quantifier": "all recipes of this kind, all lines, options, numbers of loop turns, lengths of tables and lists, depths of sections", "why_tests_cant": "recipes, lines and lengths are unbounded, and the two parsers are a generated program in C++ and an interpreter in Python", "anchors": ["endf_parserpy/compiler/code_generator_core.py: generate_code_for_varassign, generate_code_for_loop, generate_code_for_if_clause", "endf_parserpy/compiler/code_generator_core.py: generate_cpp_parse_or_write_fun", "endf_parserpy/compiler/code_generator_parsing_core.py", "endf_parserpy/compiler/endf2cpp_aux.py: open_section, close_section, ListBodyRecorder", "endf_parserpy/interpreter/endf_parser.py: EndfParser.run_instruction"]}
{"id": "C62", "title": "A compiled writer writes a section as the Python writer does", "statement": "If a compiled writer and the Python writer both accept the dictionary of a section, they write the same text: the same lines with the same control columns, line numbers and SEND record. This holds for every recipe of the kind of C61 (among them the shipped recipes of MF3, 9, 10, 13, 23, 27, MT451, MT452 and the tape head) and every dictionary, if the numbers are such that both languages print the same eleven characters (C58 says which), texts fill their fields, no list is empty and every list fills its last line, and conditions ask for variables that have been written. Without the condition on the last line of lists the lines are the same up to the fields behind the last element, which Python fills with zeros and C++ with spaces. Whole files are the same if each selected section is of this kind or kept as lines. Outside of these conditions they differ: an empty list gives a blank line in C++ only, a short text moves the control columns, and an integer given for a real number is refused by C++ only.", "quantifier": "all recipes of this kind, all dictionaries, options, numbers of loop turns, lengths of tables and lists, depths of sections", "why_tests_cant": "recipes, dictionaries and lengths are unbounded, and the two writers are a generated program in C++ and an interpreter in Python", "anchors": ["endf_parserpy/compiler/code_generator_writing.py: generate_cpp_writefun, generate_master_writefun, generate_all_cpp_writefuns_code", "endf_parserpy/compiler/code_generator_writing_core.py", "endf_parserpy/compiler/code_generator_core.py: generate_cpp_parse_or_write_fun", "endf_parserpy/compiler/cpp_templates/module_header_writing.hpp", "endf_parserpy/interpreter/endf_parser.py: EndfParser.write"]}
{"id": "C63", "title": "set_library names the library consistently", "statement": "set_library(endf_dic, libtype) with a supported libtype sets NLIB, NVER and LREL of MF1/MT451 and the first 22 columns of the third line of the description to this library and changes nothing else; the library set last counts. If it raises an exception, the description is unchanged. It should work for every file read by parsefile() whose third line of text names a library, and should leave everything unchanged if it raises; both are false.", "quantifier": "all contents of MF1/MT451, all descriptions, all library names, any sequence of calls", "why_tests_cant": "descriptions and dictionaries are unbounded, and what an exception leaves behind depends on the point where it is raised", "anchors": ["endf_parserpy/utils/endf6_plumbing.py: set_library", "endf_parserpy/endf_recipes/endf6/endf_recipe_mf1_mt451.py", "endf_parserpy/endf_recipes/pendf/endf_recipe_mf1_mt451.py"]}
{"id": "C64", "title": "Files cut short are never accepted silently", "statement": "If a prefix of the lines of an accepted file misses a line that is not blank, parse() of this prefix raises an exception (UnexpectedEndOfInputError, IndexError if nothing but blank lines is left), whatever is selected and also with nofail, unless ignore_send_records is set. A file cut within a line is accepted only if the cut is in or behind the TEND record. Every other exception of parse() is one of the package, a ValueError because of control columns that are no numbers, an IndexError because the text is empty or blank, or the exception of the recipe of a selected section; with nofail a text that can be split never fails because of exceptions of the package raised by recipes.", "quantifier": "all texts, all points where a file can be cut (between lines and within a line), all options, selections and recipes", "why_tests_cant": "there is a different truncated file for every file and every crash point, and unboundedly many malformed texts", "anchors": ["endf_parserpy/interpreter/endf_utils.py: split_sections, read_ctrl, read_send", "endf_parserpy/interpreter/endf_parser.py: EndfParser.parse", "endf_parserpy/interpreter/custom_exceptions.py"]}
{"id": "C65", "title": "EndfParserCpp takes the same options and texts as EndfParser", "statement": "Every option given by name to EndfParserCpp arrives in the compiled functions with the given value or its documented default, independent of the other options, and options that both classes have mean the same for both; unknown names are refused. With the same options the two classes read the files covered by C61 to the same data and return the same lines from write() for the dictionaries covered by C62. write() returns the lines that writefile() writes, parse() of a list of lines reads what parsefile() reads from the file with these lines, and parse(write(d)) what writefile(d) wrote. Arguments by position, options of EndfParser only and lists of lines with line feeds at their ends are exceptions.", "quantifier": "all combinations and orders of options, all values, all texts and lists of lines, all dictionaries", "why_tests_cant": "there are thousands of combinations of options and unboundedly many texts", "anchors": ["endf_parserpy/cpp_parsers/endf_parser_cpp.py: EndfParserCpp", "endf_parserpy/interpreter/endf_parser.py: EndfParser.__init__", "endf_parserpy/compiler/cpp_templates/module_header_reading.hpp: ParsingOptions", "endf_parserpy/compiler/cpp_templates/module_header_writing.hpp: WritingOptions", "endf_parserpy/compiler/code_generator_parsing.py: generate_cpp_parsefun_wrappers_string", "endf_parserpy/compiler/code_generator_writing.py: generate_cpp_writefun_wrappers_string"]}
{"id": "C66", "title": "Options and commands of the command line", "statement": "Every option given on the command line arrives in the parser object with its value, options that are not given have the default of the class, and what a command insists on takes precedence; a parser is always found, the compiled one if it can be loaded and neither --no-cpp nor --fuzzy_matching is given. show prints exactly what the dictionary of the whole parsed file has at a non-empty path, although it parses only the sections it needs. replace writes a file whose object at the path is that of the source file; everything else is as in the destination, and sections into which the path does not lead keep their lines. If a whole section is replaced and both files are of the same material, the new file can be read. Exceptions: an empty path shows unparsed lines; a section of another material gives a file that cannot be read.", "quantifier": "all combinations and values of options, all files, paths and recipes, with and without compiled modules", "why_tests_cant": "files, paths and combinations of options are unbounded; tests compare a few files", "anchors": ["endf_parserpy/cli/cmd_utils.py: ENDF_PARSER_ARGS, get_endf_parser, determine_include", "endf_parserpy/cli/actions/show.py: _show_file_content", "endf_parserpy/cli/actions/replace.py: perform_action, _replace_element"]}
{"id": "C67", "title": "Exit codes and results of validate, match and compare", "statement": "validate ends with exit code 0 if and only if each of the files found would be accepted by a new parser object with the same options, in whatever order they are read and although one parser object reads all of them; all files are in the summary, which is right up to the first file that fails, and for all files if no recipe uses lookahead; a valid file is always listed as ok; a file that was cut short is never reported as valid. match ends with 0 if and only if all files can be read, and then reports exactly the files whose dictionaries meet the query; files that can be read are looked at also if others cannot be read. compare ends with 0 if and only if both files can be read and their data are the same within the tolerances, so in particular for a file with finite numbers and itself. Exceptions: behind a file that failed an invalid file can be listed as ok; names that match no file give exit code 0; compare is not symmetric.", "quantifier": "all files, lists of files and patterns, recipes, options, queries and tolerances, all orders of the files", "why_tests_cant": "the parser object keeps its state from file to file, so the result depends on the history of all files read before; lists of files and their contents are unbounded", "anchors": ["endf_parserpy/cli/actions/validate.py: _validate_endf_files", "endf_parserpy/cli/actions/match.py: _match_endf_files", "endf_parserpy/cli/actions/compare.py: _compare_endf_files", "endf_parserpy/interpreter/endf_parser.py: EndfParser.parsefile"]}
{"id": "C68", "title": "Numbers that keep their text compare as numbers, and recipe arithmetic is exact on ints", "statement": "With every comparison operator, on either side, an EndfFloat behaves as the float it holds: the result is that of comparing the two values, whatever the text, and comparisons of finite numbers are a total order. int() of an EndfFloat drops the fraction. An EndfFloat in an arithmetic expression is always refused. The quotient of two ints below 2^53 is an int if and only if the division is exact; otherwise it is refused with cast_int and is the nearest float without it. Sums, differences and products of lists of ints are exact and element by element, and lists of different lengths are refused. Exceptions: ints beyond 2^53 are rounded before an EndfFloat is compared with them, and an inexact quotient of larger ints can be accepted as exact.", "quantifier": "all ints, all floats including infinities and nan, all texts, all six comparison operators, lists of any length", "why_tests_cant": "there are unboundedly many pairs of numbers, and errors of rounding show only for few of them", "anchors": ["endf_parserpy/utils/math_utils.py: EndfFloat, math_op, math_neg, math_mul, math_div, math_mod, math_add, math_sub"]}
