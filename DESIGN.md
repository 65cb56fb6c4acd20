# Design of the formal model of endf-parserpy

The model lives in `rocq/theories` (logical name `Verif`).  It is a shallow
embedding: every modelled Python (or C++) function is a total, computable Gallina
function over lists, integers, strings (`list ascii`), binary64 numbers and
nested values; a raised exception is a value of the `exn` type.  Each definition
cites the file and lines it models.

## Layout

* `Py*.v`     - Python primitives used by the code (string slicing, `strip`, `ljust`,
                `rjust`, `str(int)`, `int(str)`, `float(str)`, `format`, dict operations).
* `Model*.v`  - the model, function by function. No theorems.
* `Spec*.v`   - small independent specifications used in theorem statements.
* `Proof*.v`  - lemmas.
* `Thm*.v`    - property theorems only: each is closed by `exact lemma`, followed by
                an `Example` showing that its hypotheses are met by a non-trivial case
                and by `Print Assumptions`.
* `tools/recipes.py` - the script that generated `ModelRecipes.v` (the recipes of the
                package as abstract syntax) from the recipe texts in `/repo`. The
                generated file is committed; the build does not run the script.
* `seeded/LOG.jsonl` - the wrong programs against which the theorems were tested.

A theorem whose name ends in `_refuted` proves, with a computed witness, that the
property (or a part of it) is false of the code as it is; one that ends in `_partial`
proves less than the property says, and a comment says what is missing.

## Conventions

* Python `str` = `list ascii` (only 8-bit characters; Unicode digits/white space are not modelled).
* Python `int` = `Z`; `float` = the standard library's `spec_float` with our own
  correctly rounded conversions (round to nearest even, 53 bits, exponents as binary64).
* `dict` = association list in insertion order.
* Exceptions = constructors of `exn`; `result A = Ok a | Err e`.
* Mutable objects are threaded as state; aliasing that the program exploits
  (the list inside `mfmt_dic` that `parse` extends, the user's dictionary in `write`)
  is modelled explicitly, other aliasing is absent.
* External facts (libm's `log10`, the file system) are parameters whose assumptions
  appear as hypotheses in the theorem statements. No axioms.

## Plan per property

| id | what is modelled | how it is proved |
|----|------------------|------------------|
| C01 | `write` on verbatim sections, `split_sections` | induction over sections; refinement of the state machine of `split_sections` to a grammar |
| C02 | `split_sections` | invariant over the line loop |
| C03 | `split_sections` with strict options | invariant linking `sec_level` to an inductive grammar of tapes |
| C04 | section driver of `write`, sections produced by an oracle | induction over the sorted dictionary |
| C05 | `write_*`, `add_linenumbers_to_section` | length lemmas of the formatting primitives |
| C06 | `add_linenumbers_to_section` | induction over the section with the index |
| C07 | `should_skip_section`, the branches of `parse`/`write` | case analysis against a specification of selection |
| C08 | `parse` driver with an oracle for the recipe run; parser options as state | two-run argument; the options only grow more lenient, with C25 for all histories; refutation through the failing lookahead |
| C09 | `read_ctrl`, `write_ctrl` | `int (rjust (str n)) = n`; refutation for wide numbers |
| C10 | `read_fort_int`, integer fields | as C09 |
| C11 | `fortstr2float`, `float(str)` | grammar of Fortran numbers; induction over the string |
| C12 | `float2expformstr`, `float2basicnumstr`, `float2fortstr` | digit-count bounds, rounding lemmas |
| C13 | same, and `fortstr2float` | error analysis with the 2^-53 bound of our rounding |
| C14 | `float2fortstr` | direct from the comparison of the two deltas |
| C15 | `EndfFloat`, `fortstr2float`, `float2fortstr` | direct; refutation for blank/short fields |
| C16-C22 | record readers and writers of `endf_utils.py` | field lemmas composed; list induction in chunks of six |
| C23 | `eval_expr`, `varvalue_expr_conversion` on expression trees | induction over the expression |
| C24, C25 | `map_recorddic_to_datadic` | case analysis; simulation between option settings |
| C26-C33 | recipe interpreter (`run_instruction`, `cycle_for_loop`, if, lookahead, sections, records) as structural recursion over the recipe tree | induction over the recipe |
| C34 | `parse` driver | state model with the extended line list; refutation if it holds of the code |
| C35 | `split_sections` | two-run simulation |
| C36 | `array_dict_to_list`, list helpers | induction over values |
| C37-C40 | `EndfPath`, `EndfDict` on nested values | induction over paths |
| C41, C42 | `compare_objects`, tracking classes | induction over values, invariants over access histories |
| C43, C44, C45 | plumbing and user tools; for C43 also the shipped recipe of MF1/MT451 and `write` | list lemmas; lines written by each statement of the recipe |
| C46 | `RingBuffer` | invariant over operation sequences |
| C47 | recipe lookup and cache | case analysis, crash-point model of the cache file |
| C48 | `writefile`, backup creation on a directory model | invariant over all prefixes of the operation sequence |
| C49 | `matching.py` path generator | induction over the path pattern |
| C50 | C++ templates for selection, fields, lists of numbers, section-end lines, verbatim sections, and the generated function that writes a file | equality proofs with the Python functions on the common grammar; invariant that the C++ function writes each FEND record later than the Python one |
| C51 | the equation solver of the compiler as transformations of trees | every transformation preserves values in any commutative ring; instances: rationals, integers; comparison with C23 |
| C52 | interpreter in read mode; check of MF and MT in write | relation kept by every instruction: each new entry of the log of records starts at a line that was checked; check of all recipes by computation |
| C53 | body of LIST records | relation "takes" between values and elements; induction over bodies and loops |
| C54 | the recipe dictionaries of the package, `ModelRegistry.v` | lemmas about single definitions, induction over lists of definitions |
| C55 | interpreter in write mode; where the control numbers are found from within nested subsections | invariant of the working dictionaries: the innermost dictionary with MAT is that of the section; induction over recipes |
| C56 | the parser object: write and parse of whole files | the file written from dictionaries is the file written from their lines; C01 for the lines, C31 for the sections |
| C57 | recipes with abbreviations, interpreter in both directions | `unfolded` replaces the names in the recipe; simulation of the two runs by induction on the recipe: the dictionaries differ by the entries of the abbreviations |
| C58 | tables, kept texts and checks of the C++ templates | reading: induction over the lines of the list, pairs as even and odd elements; writing: loop invariant (fields done, spaces, control columns) against the chunks of six that Python writes; checks by cases, doubles compared by value |
| C59 | the generated reader of whole files against the Python parser | induction over the files and sections of the tape with the flags of the loop as invariant; Python's side from C03 and the dictionary of the tape; kept sections by an invariant of the loop over any lines; differences by computed tapes |
| C60 | the containers of compiled parsers for arrays, matrices and arrays of sections against the nested dictionaries of the interpreter | induction over the assignments with contiguous, nowhere empty vectors as invariant; the order condition is equivalent to acceptance; matrices by comparing all places; differences by computed sequences |
| C61 | the functions generated for recipes (what the generator knows about variables, what the program does with them) against the interpreter | simulation by mutual induction over the recipe: a relation between the dictionaries of the open sections and the C++ variables, kept by fields, texts, tables, lists, loops, conditions and sections; whole files (`C61_whole_files_same`) by putting this into the relational version of C59 (`C59_related_dictionaries`: if both parsers accept, induction over the turns of the reading loop); differences by computed sections |
| C62 | the functions generated for recipes, for writing, and the function for a file | simulation by mutual induction over the recipe, as for C61: the C++ frames hold the dictionaries that Python works on, and each record appends the same lines to both outputs (up to the padding of lists); then HEAD, body and SEND together, line numbers, and whole files by C50_file; differences by computed sections |
| C63 | `set_library` with the dictionary that an exception leaves behind | case analysis with a specification of the regular expression; refutations with a section written and read with the shipped recipe |
| C64 | `split_sections` and the driver of `parse` on prefixes of lines and on arbitrary text | invariants of the loop over lines (levels, readable first lines); refutations for control columns that are no numbers, empty texts and ignore_send_records |
| C65 | `bind_args` with the signatures of both classes, the structures of options (`load_parsing`, `load_writing`), `getlines` and `split` | computation on the names with symbolic values; induction on texts; C61 and C62 for files |
| C66 | `get_endf_parser` over `bind_args` of C65, `determine_include`, show and replace as functions from lines to objects and lines | lookup in the list of options by induction; the driver of parse with and without the selection by induction over the sections; get after set (C37) on the object of a file; C01 for whole sections |
| C67 | loops of validate and match over a parser object with state, `parsefile`, compare over `compare_objects` | induction over the list of files with the state kept by successes (C08), C64 for files cut short, C41 for compare |
| C68 | the six comparison methods of EndfFloat with Python's reflected operators, the arithmetic of recipes on ints and lists | comparison of exact values as rationals, exactness of rounding for ints below 2^53, induction over lists |

The round trip (C31) deserves a remark. `SpecRound.v` assigns kinds to the variables of a
recipe and gives a computable check `readable_recipe` that every variable is determined by
the fields before it is used. `ProofRound1.v`-`ProofRound9.v` prove, by a mutual induction
over recipes, that the writer and the reader run in lockstep: the reader's dictionary is
the part of the writer's dictionary that has been written so far, as printed. `ProofThird.v`
proves in the same induction that a second writer run on what was read produces the same
lines. `ProofLook.v` and `ProofRecipe.v` treat conditions that are evaluated with lookahead
by one record: the numbers in the record ahead decide the condition as the dictionary does,
because all branches begin with records that have these numbers at the same places.
`ProofClosed.v` treats conditionals with lookahead that may choose nothing. `ThmRound.v`
instantiates it with 27 recipes of the package by computation. A field that is a product of
two variables, as (LG+1)*NT in MF12, can be read if one factor is known and positive; for this
the schema has a kind of integers that are not negative (counts). `ThmRoundAbbrev.v` combines
C31 with C57 for recipes with abbreviations (MF6, and MF2/MT152 and MT153 of PENDF files).

## What is modelled

| source file | model | not modelled |
|---|---|---|
| `interpreter/fortran_utils.py` | `ModelFortran.v`, all functions | |
| `interpreter/endf_utils.py` | `ModelRecords.v` (30-439), `ModelTape.v` (440-589) | `with_ctrl=False` |
| `interpreter/endf_parser.py` | `ModelTape.v`, `ModelInterp.v`, `ModelParser.v`: parse, write, process_*, run_instruction, selection, nofail; `ModelFiles.v`: parsefile, writefile; `ModelTools.v`: record log | explain (text output), variable descriptions, log messages |
| `interpreter/endf_mapping_core.py`, `endf_mapping_utils.py`, `endf_mappings.py`, `meta_control_utils.py` | `ModelInterp.v`, all functions for dictionaries as arrays | list arrays inside the interpreter |
| `interpreter/helpers.py` | `ModelPath.v` | |
| `interpreter/logging_utils.py` | `ModelTools.v` (ring buffer) | formatting of messages |
| `interpreter/endf_recipe_utils.py` | `ModelParser.v` (lookup), `ModelFiles.v` (cache) | lark, md5, pickle: parameters |
| `utils/math_utils.py` | `ModelFortran.v`, `ModelNum.v`, `ModelInterp.v`, `ModelEndfFloat.v` (comparisons) | EndfFloat compared with other objects than numbers |
| `utils/accessories.py` | `ModelPath.v`: EndfPath, EndfVariable, EndfDict | show, printing |
| `utils/debugging_utils.py` | `ModelTools.v` (compare_objects), `ModelTracking.v` (tracking classes) | texts of the differences |
| `utils/endf6_plumbing.py`, `utils/user_tools.py` | `ModelTools.v`, `ModelLibrary.v` (set_library) | |
| `utils/matching.py` | `ModelMatch.v` | grammar of queries, printing |
| `cli/*` | `ModelFiles.v`: the commands that change files, backups; `ModelCli.v`: options, show, replace; `ModelCommands.v`: validate, match, compare | argparse, output |
| `endf_recipes/*` | `ModelRecipes.v`, generated | recipe texts are not parsed in Coq |
| `compiler/cpp_templates/module_header*.hpp` | `ModelCpp.v`: selection, fields, end records, verbatim sections; `ModelCppTab.v`: tables, kept texts, checks; `ModelCppRead.v`: reading verbatim sections | pybind11 conversions (options: `ModelCppParser.v`) |
| `compiler/code_generator_parsing.py` 230-424, `code_generator_parsing_core.py` 44-67 | `ModelCppRead.v`: the loop over the file | the functions of the recipes are a parameter |
| `compiler/cpp_types/cpp_type_nested_vector`, `cpp_type_matrix2d`: `definition.py`, `cpp_templates/index_shifter.hpp` | `ModelCppArr.v` | overflow of `int` sums; index shifters with lists; the choice between matrix and vector (`assign.py`) |
| `compiler/code_generator_core.py` 222-865, `code_generator_parsing.py` 171-221, `endf2cpp_aux.py` 164-188, 229-276 | `ModelCppGen.v`: the generated function of a recipe; `ModelCppFile.v`: the module of all recipes | arrays with two indices, fields that are equations, abbreviations, INTG records, TEXT inside of a section, text fields beyond column 66, lookahead: for these recipes `compile_vars` and `compile_text` are `None`; the texts of the generated program (what they do is modelled); exceptions of C++ are one value |
| `compiler/code_generator_writing.py` 335-488 | `ModelCpp.v`: the generated function for a file | |
| `compiler/code_generator_writing.py` 75-335, 536-563, `code_generator_writing_core.py`, `code_generator_core.py` 222-865 | `ModelCppWrite.v`: the generated function of a recipe, for writing; `ModelCppWriteFile.v`: the module of all recipes | as for ModelCppGen.v; notes record what the theorems exclude |
| `compiler/expr_utils/*`, `compiler/variable_management.py` 66-86 | `ModelSolve.v`: the equation solver; `SpecSolve.v`: fields of recipes | |
| `endf_recipes/__init__.py`, `utils.py`, `*/__init__.py` | `ModelRegistry.v`: recipe dictionaries of the flavours | |
| `cpp_parsers/endf_parser_cpp.py`, `module_header_reading.hpp` 16-125, `module_header_writing.hpp` 16-94 | `ModelCppParser.v`: options, texts and lines | array_type="list", loading of the compiled modules |
| the rest of `compiler/*` | | text of the generated program |

Simplifications are stated in the comment of each definition.

## Not expressible / not modelled

* Lark's parsing of recipe text: recipes are taken as abstract syntax trees.
* The text of the generated C++ program and the C++ compiler. What is modelled is the effect of
  the program generated for a recipe (C60, C61, C62), the hand-written run-time templates, the
  driver of generated writers (C50) and the equation solver (C51).
* Logging output, wall-clock performance, pickling internals, Unicode.
* Objects shared between two places of a dictionary.

## Trusted base

* The kernel of Coq 8.16.1 (and `vm_compute`, used for examples and for the checks of the
  recipes of the package).
* `Print Assumptions` says "Closed under the global context" for every property theorem
  (it is printed behind each of them in the `Thm*.v` files). No axiom is used, neither our
  own nor one of the standard library. (`coqchk -o` lists, for all loaded libraries, the
  module parameters `Coq.ssr.ssrunder.Under_rel.*` of the standard library; no theorem
  depends on them.)
* The correspondence between the cited lines and the Gallina definitions, by inspection.
  The source could not be run in this environment, so the model was not tested against it.
* The parameters that stand for things outside of the program, with the hypotheses stated in
  the theorems: `log10` and `pow` of the C library (`libm_ok`, shown to be satisfiable by a
  correctly rounded implementation, `C12_libm_reference`), md5 and pickle (C47), the file
  system calls (C48), the recipe functions of the C++ module in `C50_file`.
* For the statements: the `Spec*.v` files.

## Findings

The refuted theorems are findings about the code. The most consequential ones:

* a failing lookahead leaves `ignore_all_mismatches` set, so that later sections and files are
  checked less strictly (`C08_history_refuted`, `C28_failing_refuted`);
* sections returned by `nofail` contain an additional SEND record, and the rewritten tape
  cannot be parsed (`C34_written_again_refuted`);
* sections of several materials with the same MF/MT are merged (`C02_one_material_refuted`);
* numbers that do not fit into their columns are written and shift the line
  (`C09_control_columns`, `C31_overflow_refuted`);
* a conditional with lookahead that chooses nothing when written makes the reader take the
  record of the next subsection for this one (`C31_no_branch_refuted`);
* a section of MF6 with NA=-2 is written but cannot be read (`C31_negative_count_refuted`);
* subnormal numbers raise ZeroDivisionError when written, the largest double reads back as
  infinity (`C12_subnormal_refuted`, `C13_largest_refuted`);
* INTG records with NDIGIT=3 do not round trip (`C21_ndigit3_refuted`);
* a path equals each of its prefixes, and this equality is not transitive
  (`C39_equal_refuted`, `C39_transitive_refuted`);
* an interrupted writer can leave a cache entry that makes a recipe unavailable
  (`C47_interrupted_refuted`);
* the C++ writer drops a zero in three-digit exponents: 1e100 is written as 1e10
  (`C50_float_exponent_refuted`);
* the C++ writer leaves out FEND records behind sections without recipe
  (`C50_unregistered_refuted`);
* the compiler solves x+a+a*b wrongly, recurses without end on x+x, and derives a division by
  zero from a field of the recipe for MF32 (`C51_wrong_refuted`, `C51_recursion_refuted`,
  `C51_mf32_refuted`);
* C++ reads an integer in exponential notation (1.0E+3) as 1, and takes a line for an empty list
  (`C50_int_list_refuted`, `C50_empty_list_refuted`);
* C++ writes an empty line for a table without points where Python reports an error
  (`C58_empty_table_refuted`); Python does not keep the text of blank fields
  (`C58_blank_text_refuted`) and never compares the control numbers of the second and later
  lines of a record (`C58_lines_refuted`); ignore_zero_mismatch acts on variables in Python only
  (`C58_check_refuted`);
* the recipe for MF32 is used for every MT, although its records have MT=151
  (`C54_mf32_refuted`);
* a MAT number in the dictionary of a subsection is written into the lines of that subsection
  (`C55_second_mat_refuted`);
* a compiled reader rounds where the Python reader reports an error (`C51_truncated_refuted`);
* an entry that no record uses makes writing fail if it has the name of an abbreviation of the
  recipe, e.g. NW in MF2/MT153 (`C57_extra_entry_refuted`); the recipe of MF32 uses an
  abbreviation with a question mark, where it cannot be replaced (`C57_recipes`);
* a compiled parser loses the first line of a section without recipe and can reject the tape
  because of it (`C59_no_recipe_refuted`, `C59_no_recipe_empty_refuted`,
  `C59_no_recipe_first_refuted`), accepts truncated files (`C59_truncated_refuted`) and any order
  of MF (`C59_order_refuted`, the check has bool arguments), rejects a second material
  (`C59_materials_refuted`) and blank lines at the end (`C59_trailing_blank_refuted`), keeps the
  last of two sections with the same MF/MT (`C59_twice_refuted`), and cannot keep sections as
  lines while validating control records (`C59_validate_refuted`).
- Arrays in compiled parsers: indices with gaps or counting down are refused
  (`C60_gap_refuted`, `C60_downward_refuted`), the value at index -1 is lost
  (`C60_minus_one_refuted`), a row without elements appears as an empty dictionary
  (`C60_empty_row_refuted`), cells of a matrix that are not read come out as zeros
  (`C60_partial_matrix_refuted`), ranges below zero fail (`C60_empty_matrix_refuted`), a triangle
  below the diagonal cannot be returned (`C60_strict_triangle_refuted`), and arrays of sections
  with two indices and a gap use memory behind a vector (`C60_sections_gap_refuted`).
- Generated functions of recipes: a variable read again in a loop is overwritten where Python
  compares (`C61_read_again_refuted`), a LIST without elements takes the SEND record as its data
  (`C61_empty_list_refuted`, recipe of MT452 with NC=0), and a range boundary written as `1+1` is
  1 in C++ and 10 in Python (`C61_range_text_refuted`). No code is generated for `stop`, so that a
  section which the Python parser rejects as not allowed is read (`C61_stop_refuted`). After a TEXT
  record the Python parser returns the MAT, MF and MT of this line, the compiled one those of the
  first line (`C61_text_numbers_refuted`). The tape head is read alike (`C61_tape_head_same`). 12 of the 44 shipped recipes are in the
  class of `C61_compiled_recipe_same` (`covered` in ThmCppGen.v).
- Generated functions for writing: behind the last element of a list C++ leaves the fields blank and
  Python writes zeros (`C62_list_padding_refuted`); an empty list gives a blank line in C++ and none in
  Python (`C62_empty_list_refuted`); a text shorter than its field moves the control columns to the
  left (`C62_short_text_refuted`: a tape head of 20 columns); an integer given for a real number makes the
  compiled writer raise an exception (`C62_integer_value_refuted`, ZA = 1001).
- The recipe of MF1/MT451 always writes five lines of text but `update_directory` counts NWD: with NWD=2
  the entry says 11 lines and the section has 14 (`C43_few_lines_refuted`). In the PENDF flavour
  `set_endf_description` sets NWD five too large and the section cannot be written
  (`C44_pendf_refuted`).
- `set_library` looks at the third line of DESCRIPTION, but the ENDF-6 recipe puts the first five lines of
  text elsewhere: for a file read by `parsefile` it raises an exception although its third line of text names
  the library, after NLIB, NVER and LREL have been changed (`C63_files_refuted`). It works for PENDF files.
- C64: control columns that are no numbers and empty texts raise ValueError and IndexError, which nofail does not
  catch (`C64_columns_refuted`, `C64_empty_refuted`). With ignore_send_records a truncated file is accepted with
  fewer sections (`C64_ignore_refuted`).
- C65: the same arguments by position mean different options for the two classes (`C65_positions_refuted`). A list
  of lines with line feeds, as `readlines()` returns it, is read by EndfParser; EndfParserCpp puts further line
  feeds between them and the compiled function reads behind the end of the empty lines (`C65_readlines_refuted`).
- C66: `replace` of a section does not compare the materials; with a section of another material it writes a file
  that the parser refuses (`C66_other_material_refuted`). `show` with an empty path shows unparsed lines
  (`C66_show_everything_refuted`). `--fuzzy_matching` is listed as an option of the compiled parser but makes the
  command fall back to the Python parser (`C66_fuzzy_refuted`).
- C67: after a file with a failed lookahead `validate` and `match` go on with a parser object that tolerates more than
  before, so an invalid file can be listed as ok (`C67_summary_refuted`, cf. `C08_history_refuted`). A name that matches
  no file is ignored and gives exit code 0 (`C67_no_files_refuted`).
- C68: an int beyond 2^53 is rounded before an EndfFloat is compared with it, so that `EndfFloat(2.0**53, s) == 2**53 + 1`,
  and beyond the range of floats the comparison raises OverflowError (`C68_large_refuted`). `math_div(2**53 + 1, 2, cast_int=True)`
  returns 2^52 (`C68_div_refuted`). The methods `__rlt__`, `__rle__`, `__rgt__` and `__rge__` are never called by Python.
