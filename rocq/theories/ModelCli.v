(** Model of endf_parserpy/cli/cmd_utils.py 28-111 and of the commands show (cli/actions/show.py)
    and replace (cli/actions/replace.py): the options of the parser, the sections that are parsed
    and the contents that are shown or written. What happens to the files is in ModelFiles.v. *)
From Coq Require Import Ascii String ZArith Bool List.
From Verif Require Import PyBase PyFloat ModelFortran ModelRecords ModelTape ModelNum ModelRecipe ModelInterp ModelParser ModelPath ModelCppParser.
Import ListNotations.
Open Scope Z_scope.

(** ** Options *)

(** cmd_utils.py 28-49: the options of the command line, and whether they are passed to the
    compiled parser *)
Definition cli_options : list (str * bool) :=
  [ ($"ignore_number_mismatch", true); ($"ignore_zero_mismatch", true); ($"fuzzy_matching", true); ($"ignore_varspec_mismatch", true);
    ($"accept_spaces", true); ($"ignore_blank_lines", true); ($"ignore_send_records", true); ($"ignore_missing_tpid", true);
    ($"print_cache_info", false); ($"endf_format", true); ($"loglevel", false); ($"preserve_value_strings", true); ($"array_type", true) ].
(** the dictionary of the arguments ([ONone] where nothing is given and there is no default value); the
    command line itself is parsed by argparse, which is not modelled. 74-83 *)
Definition parser_args (cpp : bool) (args : odict) : odict :=
  flat_map (fun p : str * bool =>
    match oget (fst p) args with
    | None | Some ONone => []
    | Some v => if negb cpp || snd p then [(fst p, v)] else []
    end) cli_options.
(** [{**args, **override}] *)
Definition merge (args override : odict) : odict := override ++ args.

Inductive backend : Type := UsePython (args : odict) | UseCpp (args : odict).
(** 86-100. [loads args] tells whether the compiled module for these arguments can be loaded
    (endf_parser_cpp.py 164-186). The result is [None] if the constructor of the Python class raises TypeError. *)
Definition get_endf_parser (loads : odict -> bool) (no_cpp : bool) (args override : odict) : option backend :=
  let all := merge args override in
  let python := option_map UsePython (bind_args py_signature [] (parser_args false all)) in
  if no_cpp then python
  else match bind_args cpp_signature [] (parser_args true all) with
       | Some a => if loads a then Some (UseCpp a) else python
       | None => python
       end.
(** actions/replace.py 54-70 *)
Definition replace_override (args : odict) (path : list key) : odict :=
  [ ($"ignore_zero_mismatch", match oget $"ignore_zero_mismatch" args with None | Some ONone => OBool false | Some v => v end);
    ($"ignore_send_records", OBool true); ($"ignore_missing_tpid", OBool true) ]
  ++ (if (length path <=? 2)%nat then [] else [($"preserve_value_strings", OBool true)]).

(** ** Sections *)

(** [int(x)] of an element of a path *)
Definition int_of_key (k : key) : result Z := match k with KInt z => Ok z | KStr _ => Err ValueError end.
(** 103-111 *)
Definition determine_include (path : list key) : result (list selitem) :=
  match path with
  | [] => Ok []
  | [a] => do mf <- int_of_key a; Ok [SMf mf]
  | a :: b :: _ => do mf <- int_of_key a; do mt <- int_of_key b; Ok [SMfMt mf mt]
  end.

(** The dictionary of a file as a Python object and back. Sections that are not parsed are lists of
    strings. Simplification: objects of other shapes, which write cannot handle, are a TypeError here. *)
Definition section_object (s : section dict) : val :=
  match s with Raw ls => VList (map VStr ls) | Parsed d => VDict d end.
Definition as_object (d : mfdic (section dict)) : val :=
  VDict (map (fun f : Z * mtdic (section dict) =>
    (KInt (fst f), VDict (map (fun s : Z * section dict => (KInt (fst s), section_object (snd s))) (snd f)))) d).
Fixpoint strings_of (l : list val) : result (list str) :=
  match l with
  | [] => Ok []
  | VStr s :: r => do x <- strings_of r; Ok (s :: x)
  | _ :: _ => Err TypeError
  end.
Definition section_of (v : val) : result (section dict) :=
  match v with
  | VList l => do ls <- strings_of l; Ok (Raw ls)
  | VDict d => Ok (Parsed d)
  | _ => Err TypeError
  end.
Fixpoint int_keyed {A} (f : val -> result A) (d : dict) : result (list (Z * A)) :=
  match d with
  | [] => Ok []
  | (KInt k, v) :: r => do x <- f v; do y <- int_keyed f r; Ok ((k, x) :: y)
  | (KStr _, _) :: _ => Err TypeError
  end.
Definition file_of (v : val) : result (mfdic (section dict)) :=
  match v with
  | VDict d => int_keyed (fun w => match w with VDict e => int_keyed section_of e | _ => Err TypeError end) d
  | _ => Err TypeError
  end.

(** ** Commands *)

(** actions/show.py 36-41 with the Python parser: the object that is shown. [o] are the options for
    parsing of the parser object, [lines] the file. *)
Definition show (p : parser) (o : popts) (path : list key) (lines : list str) : result val :=
  do inc <- determine_include path;
  do d <- fst (parse p false None (Some inc) o lines);
  path_lookup path (as_object d).

(** actions/replace.py 83-98 with the Python parser, for one destination: the dictionary that is written,
    and the lines *)
Definition replaced_dict (p : parser) (o : popts) (path : list key) (source dest : list str) : result (mfdic (section dict)) :=
  do inc <- (if (length path <=? 2)%nat then Ok [] else determine_include path);
  let '(r1, o1) := parse p false None (Some inc) o source in
  do src <- r1;
  do obj <- path_lookup path (as_object src);
  let '(r2, _) := parse p false None (Some inc) o1 dest in
  do dst <- r2;
  match path_set {| po_dict := true; po_leading := true |} true path obj (as_object dst) with
  | (Ok _, v) => file_of v
  | (Err e, _) => Err e
  end.
Definition replace_object (p : parser) (o : popts) (path : list key) (source dest : list str) : result (list str) :=
  do d <- replaced_dict p o path source dest;
  write p false None None o d.
