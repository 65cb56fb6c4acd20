(** Model of the functions that the compiler generates for reading a section by a recipe
    (compiler/code_generator_core.py, code_generator_parsing.py, code_generator_parsing_core.py,
    endf2cpp_aux.py, cpp_types/). What the generator knows while it writes the program (vardict)
    and what the program does with its variables are kept apart: [reg_*] are the former, [c*] the
    latter.

    Modelled are recipes that consist of HEAD (as the first record), CONT, TAB1, TAB2, LIST, DIR, TEXT
    (outside of sections), loops, conditions without lookahead, sections and SEND, in which
    - a field is a number or a variable without index or with one index, and the index is a loop
      variable or a number that is not negative;
    - the variables of a TEXT record occur only there, and its fields end before column 67;
    - a name stands for one kind of thing in a section;
    - loops begin with a number that is not negative; their ends and the two sides of conditions
      are integer expressions without division.
    For other recipes [compile_vars] is [None]; nothing is said about them. *)
From Coq Require Import Ascii String ZArith Bool Lia List.
From Coq Require Import Floats.SpecFloat.
From Verif Require Import PyBase PyFloat ModelFortran ModelRecords ModelNum ModelRecipe ModelInterp ModelCpp ModelCppTab ModelCppArr.
Import ListNotations.
Open Scope Z_scope.

(** ** What the generator knows *)

(** the types of fields (code_generator_core.py 435, 534, endf2cpp_aux.py 257) *)
Inductive ctype : Type := TInt | TFloat | TStr.
(** what a name stands for: a scalar, a vector (NestedVector), a column of a table, a section *)
Inductive kind : Type := KScal (t : ctype) | KArr (t : ctype) | KTab | KSec.

Definition ctype_eqb (a b : ctype) : bool := match a, b with TInt, TInt | TFloat, TFloat | TStr, TStr => true | _, _ => false end.
Definition kind_eqb (a b : kind) : bool :=
  match a, b with
  | KScal s, KScal t | KArr s, KArr t => ctype_eqb s t
  | KTab, KTab | KSec, KSec => true
  | _, _ => false
  end.

(** vardict of one section. Names of sections are not in Python's vardict; they are kept here to
    leave recipes aside in which a name stands for a section and a variable. *)
Definition vars : Type := list (str * kind).
Fixpoint kget (x : str) (l : vars) : option kind :=
  match l with
  | [] => None
  | (y, k) :: r => if str_eqb x y then Some k else kget x r
  end.
Definition kadd (x : str) (k : kind) (l : vars) : vars :=
  match kget x l with Some _ => l | None => l ++ [(x, k)] end.

(** variable_management.py: find_parent_dict. The section in which a variable has been
    encountered, counted from the innermost one. *)
Fixpoint resolve (x : str) (fs : list vars) : option (nat * kind) :=
  match fs with
  | [] => None
  | f :: r => match kget x f with
              | Some k => Some (O, k)
              | None => match resolve x r with Some (n, k) => Some (S n, k) | None => None end
              end
  end.

Definition known (x : str) (l : list str) : bool := existsb (str_eqb x) l.
Definition index_ok (lv : list str) (q : idx) : bool :=
  match q with
  | IVar i => known i lv
  | INum (NInt z) => 0 <=? z
  | INum _ => false
  end.
(** no index: a scalar; one index: a vector *)
Definition indices_ok (lv : list str) (ix : list idx) : option bool :=
  match ix with
  | [] => Some false
  | [q] => if index_ok lv q then Some true else None
  | _ => None
  end.

(** What the program does with a field, code_generator_core.py 222-278: a number is checked; a
    variable that has not been encountered is assigned without asking whether it has been read;
    one that has been encountered (in this section or around it) is assigned if it has not been
    read, and checked otherwise. The assignment declares the variable in the section of the field
    (register_var, variable_management.py 17-23, and generate_vardefs put the declaration at the
    beginning of the block of the section): a variable of the same name of a section around it is
    hidden, and the question whether it has been read is about the variable declared here. *)
Inductive plan : Type :=
| Check (v : num)
| Assign (x : str) (ix : list idx)
| AssignOrCheck (x : str) (ix : list idx).
Definition var_kind (arr : bool) (t : ctype) : kind := if arr then KArr t else KScal t.
Definition plan_var (up : list vars) (lv : list str) (cur : vars) (t : ctype) (x : str) (ix : list idx) : option plan :=
  if known x lv then None else
  match indices_ok lv ix with
  | None => None
  | Some arr =>
      match resolve x (cur :: up) with
      | None => Some (Assign x ix)
      | Some (_, k) => if kind_eqb k (var_kind arr t) then Some (AssignOrCheck x ix) else None
      end
  end.
Definition plan_of (up : list vars) (lv : list str) (cur : vars) (t : ctype) (e : expr) : option plan :=
  match e with
  | ENum _ v => match v with NEndf _ _ => None | _ => Some (Check v) end
  | EVar x ix | EIncons x ix => plan_var up lv cur t x ix
  | _ => None
  end.
(** register_var *)
Definition reg_plan (t : ctype) (cur : vars) (p : plan) : vars :=
  match p with
  | Assign x ix | AssignOrCheck x ix => kadd x (var_kind (match ix with [] => false | _ => true end) t) cur
  | Check _ => cur
  end.
Definition reg_field (up : list vars) (lv : list str) (t : ctype) (cur : vars) (e : expr) : option vars :=
  match plan_of up lv cur t e with
  | Some p => Some (reg_plan t cur p)
  | None => None
  end.

(** the fields of a record with their positions, 424-458 *)
Definition cfields : Type := list (nat * ctype * expr).
Definition head_fields (f : fields6) : cfields :=
  [(0%nat, TFloat, f_c1 f); (1%nat, TFloat, f_c2 f); (2%nat, TInt, f_l1 f); (3%nat, TInt, f_l2 f)].
Definition cont_fields (f : fields6) : cfields := head_fields f ++ [(4%nat, TInt, f_n1 f); (5%nat, TInt, f_n2 f)].
Definition tab2_fields (f : fields6) : cfields := head_fields f ++ [(5%nat, TInt, f_n2 f)].
(** 610-618 *)
Definition dir_fields (l1 l2 n1 n2 : expr) : cfields :=
  [(2%nat, TInt, l1); (3%nat, TInt, l2); (4%nat, TInt, n1); (5%nat, TInt, n2)].
Fixpoint reg_fields (up : list vars) (lv : list str) (cur : vars) (fs : cfields) : option vars :=
  match fs with
  | [] => Some cur
  | (_, t, e) :: r => match reg_field up lv t cur e with
                      | Some cur' => reg_fields up lv cur' r
                      | None => None
                      end
  end.

(** The fields of a TEXT record, 513-541; [ofs]: the column in which the field begins. Only the first
    field may be without a length. Simplification: texts that have been encountered before, and
    fields that reach behind column 66, are left aside. *)
Definition text_length (first : bool) (f : textfield) : option nat :=
  match f with
  | (_, Some n) => Some n
  | (Some _, None) => if first then Some 66%nat else None
  | (None, None) => None
  end.
Fixpoint reg_text (lv : list str) (cur : vars) (first : bool) (ofs : nat) (fs : list textfield) : option vars :=
  match fs with
  | [] => Some cur
  | (u, n) :: r =>
      match text_length first (u, n) with
      | None => None
      | Some len =>
          if (66 <? ofs + len)%nat then None else
          match u with
          | None => reg_text lv cur false (ofs + len) r
          | Some (x, ix) =>
              if known x lv then None else
              match indices_ok lv ix, kget x cur with
              | Some arr, None => reg_text lv (kadd x (var_kind arr TStr) cur) false (ofs + len) r
              | _, _ => None
              end
          end
      end
  end.

(** the columns of a table, without index; not encountered before, or as a column of a table *)
Definition reg_column (up : list vars) (lv : list str) (cur : vars) (x : str) : option vars :=
  if known x lv then None else
  match resolve x (cur :: up) with
  | None | Some (_, KTab) => Some (kadd x KTab cur)
  | Some _ => None
  end.
Fixpoint reg_columns (up : list vars) (lv : list str) (cur : vars) (xs : list str) : option vars :=
  match xs with
  | [] => Some cur
  | x :: r => match reg_column up lv cur x with
              | Some cur' => reg_columns up lv cur' r
              | None => None
              end
  end.

(** a section, code_generator_core.py 326-348; [body] says what becomes of the variables of the
    section, given those around it *)
Definition reg_section (up : list vars) (lv : list str) (cur : vars) (u : extvar) (body : list vars -> vars -> option vars)
  : option vars :=
  let '(x, ix) := u in
  if known x lv || negb (forallb (index_ok lv) ix) then None else
  match (match resolve x (cur :: up) with
         | None => Some (kadd x KSec cur)
         | Some (O, KSec) => Some cur
         | Some _ => None
         end) with
  | None => None
  | Some cur' => match body (cur' :: up) [] with Some _ => Some cur' | None => None end
  end.
Definition reg_named (up : list vars) (lv : list str) (cur : vars) (name : option extvar) (body : list vars -> vars -> option vars)
  : option vars :=
  match name with
  | None => body up cur
  | Some u => reg_section up lv cur u body
  end.

(** integer expressions over variables that have been encountered *)
Fixpoint int_expr (up : list vars) (lv : list str) (cur : vars) (e : expr) : bool :=
  match e with
  | ENum _ (NInt _) => true
  | ENum _ _ => false
  | EVar x ix =>
      if known x lv then match ix with [] => true | _ => false end else
      match indices_ok lv ix, resolve x (cur :: up) with
      | Some arr, Some (_, k) => kind_eqb k (var_kind arr TInt)
      | _, _ => false
      end
  | ENeg a => int_expr up lv cur a
  | EAdd a b | ESub a b | EMul a b => int_expr up lv cur a && int_expr up lv cur b
  | EIncons _ _ | EDiv _ _ | EMod _ _ => false
  end.
Fixpoint int_cond (up : list vars) (lv : list str) (cur : vars) (c : cond) : bool :=
  match c with
  | CRel _ a b => int_expr up lv cur a && int_expr up lv cur b
  | CAnd a b | COr a b => int_cond up lv cur a && int_cond up lv cur b
  end.

(** a loop, 780-830: its variable has not been encountered *)
Definition loop_ok (up : list vars) (lv : list str) (cur : vars) (v : str) (start stop : expr) : bool :=
  negb (known v lv) && match resolve v (cur :: up) with None => true | Some _ => false end &&
  match start with ENum _ (NInt a) => 0 <=? a | _ => false end && int_expr up lv cur stop.

(** update_vardict *)
Fixpoint merge (a b : vars) : option vars :=
  match b with
  | [] => Some a
  | (x, k) :: r =>
      match kget x a with
      | None => merge (a ++ [(x, k)]) r
      | Some k' => if kind_eqb k k' then merge a r else None
      end
  end.

(** the body of a list, 765-800; LINEPADDING is not implemented *)
Fixpoint reg_litem (up : list vars) (lv : list str) (cur : vars) (i : litem) : option vars :=
  match i with
  | LExpr e => reg_field up lv TFloat cur e
  | LPad => None
  | LLoop v a b body => if loop_ok up lv cur v a b then reg_lbody up (v :: lv) cur body else None
  end
with reg_lbody (up : list vars) (lv : list str) (cur : vars) (b : lbody) : option vars :=
  match b with
  | LNil => Some cur
  | LCons i r => match reg_litem up lv cur i with Some cur' => reg_lbody up lv cur' r | None => None end
  end.

(** Simplification: tables with two columns of the same name are left aside. *)
Fixpoint distinct (l : list str) : bool :=
  match l with [] => true | x :: r => negb (known x r) && distinct r end.
Definition tab_columns (x y : extvar) : option (list str) :=
  match snd x, snd y with
  | [], [] => let l := [fst x; fst y; $"INT"; $"NBT"] in if distinct l then Some l else None
  | _, _ => None
  end.

(** generate_code_from_parsetree, 284-323 *)
Fixpoint reg_instr (up : list vars) (lv : list str) (cur : vars) (i : instr) : option vars :=
  match i with
  | ICont false _ f => reg_fields up lv cur (cont_fields f)
  | ITab1 _ f x y name =>
      match reg_fields up lv cur (head_fields f), tab_columns x y with
      | Some c1, Some cols => reg_named up lv c1 name (fun up' c => reg_columns up' lv c cols)
      | _, _ => None
      end
  | ITab2 _ f name =>
      match reg_fields up lv cur (tab2_fields f) with
      | Some c1 => reg_named up lv c1 name (fun up' c => reg_columns up' lv c [$"INT"; $"NBT"])
      | None => None
      end
  | IList _ f body name =>
      match reg_fields up lv cur (cont_fields f) with
      | Some c1 => reg_named up lv c1 name (fun up' c => reg_lbody up' lv c body)
      | None => None
      end
  | IDir _ l1 l2 n1 n2 => reg_fields up lv cur (dir_fields l1 l2 n1 n2)
  | IText _ fs => match up with [] => reg_text lv cur true 0 fs | _ => None end
  | IStop => Some cur
  | ISection head _ body => reg_section up lv cur head (fun up' c => reg_block up' lv c body)
  | IFor v a b body => if loop_ok up lv cur v a b then reg_block up (v :: lv) cur body else None
  | IIf first more els =>
      match reg_branch up lv cur first with
      | None => None
      | Some c1 =>
          match reg_branches up lv cur c1 more with
          | None => None
          | Some c2 => match reg_block up lv cur els with Some c => merge c2 c | None => None end
          end
      end
  | _ => None
  end
with reg_block (up : list vars) (lv : list str) (cur : vars) (b : block) : option vars :=
  match b with
  | BNil => Some cur
  | BCons i r => match reg_instr up lv cur i with Some cur' => reg_block up lv cur' r | None => None end
  end
with reg_branch (up : list vars) (lv : list str) (cur : vars) (b : branch) : option vars :=
  match b with
  | Branch c None body => if int_cond up lv cur c then reg_block up lv cur body else None
  | Branch _ (Some _) _ => None
  end
with reg_branches (up : list vars) (lv : list str) (cur acc : vars) (r : branches) : option vars :=
  match r with
  | RNil => Some acc
  | RCons b r' =>
      match reg_branch up lv cur b with
      | None => None
      | Some c => match merge acc c with Some acc' => reg_branches up lv cur acc' r' | None => None end
      end
  end.

(** ** What the program does *)

(** a variable that has been read: of a simple type or a vector; and a NestedVector *)
Inductive cell : Type := CScal (v : val) | CArr (n : nvec).

(** the variables of a section, the dictionary [cpp_current_dict] and the shifters of
    [cpp_index_shifter_store] *)
Record cframe : Type := { cf_vars : list (str * cell); cf_dict : dict; cf_shift : list (str * shifter) }.
Definition new_frame : cframe := {| cf_vars := []; cf_dict := []; cf_shift := [] |}.

(** Notes about the run that do not influence it: a variable or a section that had been read was
    read again without a check; a table or list without elements was read; the integers of a table
    were read from these lines; numbers were read from these lines; a text was read from this line
    while the variables MAT, MF, MT had these values. *)
Inductive note : Type :=
| Again (x : str)
| Empty
| Ranges (n : nat) (lines : list str)
| Numbers (lines : list str)
| Text (c : option ctrl) (line : str).

Record cstate : Type := {
  k_lines : list str;              (* the lines still to be read *)
  k_cur : cframe;                  (* the innermost section *)
  k_up : list cframe;              (* the sections around it *)
  k_loops : list (str * Z);        (* the loop variables *)
  k_notes : list note
}.
Definition with_lines (l : list str) (s : cstate) : cstate :=
  {| k_lines := l; k_cur := k_cur s; k_up := k_up s; k_loops := k_loops s; k_notes := k_notes s |}.
Definition with_cur (f : cframe) (s : cstate) : cstate :=
  {| k_lines := k_lines s; k_cur := f; k_up := k_up s; k_loops := k_loops s; k_notes := k_notes s |}.
Definition with_frames (f : cframe) (up : list cframe) (s : cstate) : cstate :=
  {| k_lines := k_lines s; k_cur := f; k_up := up; k_loops := k_loops s; k_notes := k_notes s |}.
Definition with_loops (l : list (str * Z)) (s : cstate) : cstate :=
  {| k_lines := k_lines s; k_cur := k_cur s; k_up := k_up s; k_loops := l; k_notes := k_notes s |}.
Definition with_notes (l : list note) (s : cstate) : cstate :=
  {| k_lines := k_lines s; k_cur := k_cur s; k_up := k_up s; k_loops := k_loops s; k_notes := k_notes s ++ l |}.

Fixpoint vget {A} (x : str) (l : list (str * A)) : option A :=
  match l with
  | [] => None
  | (y, c) :: r => if str_eqb x y then Some c else vget x r
  end.
Fixpoint vset {A} (x : str) (c : A) (l : list (str * A)) : list (str * A) :=
  match l with
  | [] => [(x, c)]
  | (y, d) :: r => if str_eqb x y then (y, c) :: r else (y, d) :: vset x c r
  end.
Definition set_cell (x : str) (c : cell) (f : cframe) : cframe :=
  {| cf_vars := vset x c (cf_vars f); cf_dict := cf_dict f; cf_shift := cf_shift f |}.

Definition frame_at (n : nat) (s : cstate) : option cframe := nth_error (k_cur s :: k_up s) n.

(** the value of an index *)
Definition index_value (loops : list (str * Z)) (q : idx) : cpp Z :=
  match q with
  | IVar x => match lget x loops with Some i => Val i | None => Undefined end
  | INum (NInt z) => Val z
  | INum _ => Undefined
  end.

(** cpp_type_scalar/query.py, cpp_type_nested_vector/query.py: has the variable been read? *)
Definition did_read (loops : list (str * Z)) (f : cframe) (x : str) (ix : list idx) : cpp bool :=
  match ix with
  | [] => Val (match vget x (cf_vars f) with Some _ => true | None => false end)
  | [q] => let* i := index_value loops q in
           Val (match vget x (cf_vars f) with Some (CArr n) => nv_contains i n | _ => false end)
  | _ => Undefined
  end.
(** the value of a variable; of one that has not been read it is not defined, an element that is
    not there ends in an exception *)
Definition cell_value (loops : list (str * Z)) (f : cframe) (x : str) (ix : list idx) : cpp val :=
  match ix with
  | [] => match vget x (cf_vars f) with Some (CScal v) => Val v | _ => Undefined end
  | [q] => let* i := index_value loops q in
           match vget x (cf_vars f) with
           | Some (CArr n) => nv_get [i] n
           | Some (CScal _) => Undefined
           | None => Throw
           end
  | _ => Undefined
  end.
(** cpp_type_scalar/assign.py, cpp_type_nested_vector/assign.py *)
Definition assign (loops : list (str * Z)) (f : cframe) (x : str) (ix : list idx) (v : val) : cpp cframe :=
  match ix with
  | [] => Val (set_cell x (CScal v) f)
  | [q] => let* i := index_value loops q in
           let* n := nv_assign [i] v (match vget x (cf_vars f) with Some (CArr n) => n | _ => nv_empty end) in
           Val (set_cell x (CArr n) f)
  | _ => Undefined
  end.

(** the options of the generated functions *)
Record copts : Type := {
  co_accept : bool;       (* accept_spaces *)
  co_preserve : bool;     (* preserve_value_strings *)
  co_validate : bool;     (* validate_control_records *)
  co_checks : cpopts
}.

Section Run.
  Variable o : copts.
  Variable c : ctrl.        (* MAT, MF, MT of the section *)

  Definition num_of (e : endf_float_cpp) : num := NEndf (ef_value e) (ef_orig e).
  Definition read_field (t : ctype) (line : str) (j : nat) : cpp num :=
    match t with
    | TInt => let* z := cpp_read_int_field line j in Val (NInt z)
    | TFloat => let* e := cpp_read_endf_field (co_accept o) (co_preserve o) line j in Val (num_of e)
    | TStr => Undefined
    end.

  Definition check_against (e : expr) (old : val) (v : num) : cpp unit :=
    match old with
    | VNum w => cpp_validate_field (co_checks o) e w v
    | _ => Undefined
    end.
  Definition run_plan (e : expr) (v : num) (p : plan) (s : cstate) : cpp cstate :=
    match p with
    | Check w => let* _ := check_against e (VNum w) v in Val s
    | Assign x ix =>
        let* seen := did_read (k_loops s) (k_cur s) x ix in
        let* f := assign (k_loops s) (k_cur s) x ix (VNum v) in
        Val (with_notes (if (seen : bool) then [Again x] else []) (with_cur f s))
    | AssignOrCheck x ix =>
        let* seen := did_read (k_loops s) (k_cur s) x ix in
        if (seen : bool) then
          let* old := cell_value (k_loops s) (k_cur s) x ix in
          let* _ := check_against e old v in Val s
        else let* f := assign (k_loops s) (k_cur s) x ix (VNum v) in Val (with_cur f s)
    end.
  Definition run_field (up : list vars) (lv : list str) (t : ctype) (cur : vars) (e : expr) (line : str) (j : nat) (s : cstate)
    : cpp cstate :=
    match plan_of up lv cur t e with
    | None => Undefined
    | Some p => let* v := read_field t line j in run_plan e v p s
    end.
  Fixpoint run_fields (up : list vars) (lv : list str) (cur : vars) (line : str) (fs : cfields) (s : cstate) : cpp cstate :=
    match fs with
    | [] => Val s
    | (j, t, e) :: r =>
        match reg_field up lv t cur e with
        | None => Undefined
        | Some cur' => let* s' := run_field up lv t cur e line j s in run_fields up lv cur' line r s'
        end
    end.

  (** [cpp_line = cpp_read_line(...)] *)
  Definition next_line (s : cstate) : cpp (str * cstate) :=
    let* (l, r) := cpp_read_line (co_validate o) c (k_lines s) in Val (l, with_notes [Numbers [l]] (with_lines r s)).
  (** the lines of a table *)
  Definition taken (r lines : list str) : list str := firstn (length lines - length r) lines.

  (** endf2cpp_aux.py 122-124: [cpp_line.substr(start, length)]; beyond the end of the line an
      exception *)
  Definition cpp_substr (ofs len : nat) (line : str) : cpp str :=
    if (length line <? ofs)%nat then Throw else Val (slice ofs (ofs + len) line).
  (** 520-540 *)
  Fixpoint run_texts (first : bool) (ofs : nat) (line : str) (fs : list textfield) (s : cstate) : cpp cstate :=
    match fs with
    | [] => Val s
    | (u, n) :: r =>
        match text_length first (u, n) with
        | None => Undefined
        | Some len =>
            let* s' :=
              match u with
              | None => Val s
              | Some (x, ix) =>
                  let* seen := did_read (k_loops s) (k_cur s) x ix in
                  let* t := cpp_substr ofs len line in
                  let* f := assign (k_loops s) (k_cur s) x ix (VStr t) in
                  Val (with_notes (if (seen : bool) then [Again x] else []) (with_cur f s))
              end in
            run_texts false (ofs + len) line r s'
        end
    end.
  (** the variables MAT, MF and MT *)
  Definition ctrl_cells (f : cframe) : option ctrl :=
    match vget $"MAT" (cf_vars f), vget $"MF" (cf_vars f), vget $"MT" (cf_vars f) with
    | Some (CScal (VNum (NInt a))), Some (CScal (VNum (NInt b))), Some (CScal (VNum (NInt d))) => Some {| MAT := a; MF := b; MT := d |}
    | _, _, _ => None
    end.
  Definition run_text (fs : list textfield) (s : cstate) : cpp cstate :=
    let* (line, r) := cpp_read_line (co_validate o) c (k_lines s) in
    let* s1 := run_texts true 0 line fs (with_lines r s) in
    Val (with_notes [Text (ctrl_cells (k_cur s1)) line] s1).

  (** The columns of a table: a column that has not been encountered is assigned without a check;
      one that has been encountered is assigned if it has not been read, and the comparison with
      one that has been read is not implemented (module_header_reading.hpp 323-344). *)
  Fixpoint run_columns (up : list vars) (cur : vars) (cols : list (str * val)) (s : cstate) : cpp cstate :=
    match cols with
    | [] => Val s
    | (x, v) :: r =>
        let new := with_cur (set_cell x (CScal v) (k_cur s)) s in
        let* s' :=
          match vget x (cf_vars (k_cur s)), resolve x (cur :: up) with
          | None, _ => Val new
          | Some _, None => Val (with_notes [Again x] new)
          | Some _, Some _ => Throw
          end in
        run_columns up (kadd x KTab cur) r s'
    end.
  Definition ints (l : list Z) : val := VList (map (fun z => VNum (NInt z)) l).
  Definition floats (l : list endf_float_cpp) : val := VList (map (fun e => VNum (num_of e)) l).
  Definition note_empty (n : Z) : list note := if n <=? 0 then [Empty] else [].

  (** ** Sections *)

  (** index_shifter.hpp 124-150: IndexShifterStore::setdefault *)
  Definition store_open (x : str) (ix : list Z) (f : cframe) : cpp (val * cframe) :=
    match ix with
    | [] =>
        let d := match dget (KStr x) (cf_dict f) with Some d => d | None => VDict [] end in
        Val (d, {| cf_vars := cf_vars f; cf_dict := dset (KStr x) d (cf_dict f); cf_shift := cf_shift f |})
    | _ =>
        let arr := match dget (KStr x) (cf_dict f) with Some d => d | None => VDict [] end in
        let sh := match vget x (cf_shift f) with Some sh => sh | None => new_shifter end in
        let* (found, arr', sh') := shift_open ix arr sh in
        Val (found, {| cf_vars := cf_vars f; cf_dict := dset (KStr x) arr' (cf_dict f);
                       cf_shift := vset x sh' (cf_shift f) |})
    end.

  (** code_generator_parsing_core.py 34-41: the variables are put into the dictionary *)
  Definition stored (c : cell) : option val :=
    match c with
    | CScal v => Some v
    | CArr n => if nv_did_read n then Some (nv_dict n) else None
    end.
  Fixpoint store_vars (l : list (str * cell)) (d : dict) : dict :=
    match l with
    | [] => d
    | (x, c) :: r => store_vars r (match stored c with Some v => dset (KStr x) v d | None => d end)
    end.

  (** code_generator_core.py 326-341, endf2cpp_aux.py 164-188, code_generator_parsing.py 131-153.
      The dictionary of the section is the one found; the variables of the section are new. *)
  Definition in_frame (u : extvar) (body : cstate -> cpp cstate) (s : cstate) : cpp cstate :=
    let '(x, q) := u in
    let* ix := cmapM (index_value (k_loops s)) q in
    let* (found, f) := store_open x ix (k_cur s) in
    match found with
    | VDict d =>
        let again := match d with [] => [] | _ => [Again x] end in
        let inner := {| cf_vars := []; cf_dict := d; cf_shift := [] |} in
        let* s1 := body (with_notes again (with_frames inner (f :: k_up s) s)) in
        match k_up s1 with
        | f1 :: up =>
            let d1 := store_vars (cf_vars (k_cur s1)) (cf_dict (k_cur s1)) in
            match put_path (KStr x :: map KInt ix) (VDict d1) (VDict (cf_dict f1)) with
            | VDict d' => Val (with_frames {| cf_vars := cf_vars f1; cf_dict := d'; cf_shift := cf_shift f1 |} up s1)
            | _ => Undefined
            end
        | [] => Undefined
        end
    | _ => Throw
    end.
  Definition in_named (name : option extvar) (body : cstate -> cpp cstate) : cstate -> cpp cstate :=
    match name with None => body | Some u => in_frame u body end.

  (** the variables the generator knows in the section *)
  Definition vars_in (up : list vars) (cur : vars) (name : option extvar) : list vars * vars :=
    match name with
    | None => (up, cur)
    | Some (x, _) => (kadd x KSec cur :: up, [])
    end.

  (** ** Integers, conditions, loops *)

  Fixpoint ceval (up : list vars) (lv : list str) (cur : vars) (s : cstate) (e : expr) : cpp Z :=
    match e with
    | ENum _ (NInt z) => c_int z
    | EVar x ix =>
        if known x lv then match lget x (k_loops s) with Some i => Val i | None => Undefined end else
        match resolve x (cur :: up) with
        | None => Undefined
        | Some (n, _) =>
            match frame_at n s with
            | None => Undefined
            | Some f => let* v := cell_value (k_loops s) f x ix in
                        match v with VNum (NInt z) => Val z | _ => Undefined end
            end
        end
    | ENeg a => let* x := ceval up lv cur s a in c_int (- x)
    | EAdd a b => let* x := ceval up lv cur s a in let* y := ceval up lv cur s b in c_int (x + y)
    | ESub a b => let* x := ceval up lv cur s a in let* y := ceval up lv cur s b in c_int (x - y)
    | EMul a b => let* x := ceval up lv cur s a in let* y := ceval up lv cur s b in c_int (x * y)
    | _ => Undefined
    end.

  (** all variables of the expression have been read *)
  Fixpoint all_read (up : list vars) (lv : list str) (cur : vars) (s : cstate) (e : expr) : cpp bool :=
    match e with
    | EVar x ix =>
        if known x lv then Val true else
        match resolve x (cur :: up) with
        | None => Undefined
        | Some (n, _) => match frame_at n s with
                         | None => Undefined
                         | Some f => did_read (k_loops s) f x ix
                         end
        end
    | ENeg a => all_read up lv cur s a
    | EAdd a b | ESub a b | EMul a b =>
        let* x := all_read up lv cur s a in if (x : bool) then all_read up lv cur s b else Val false
    | _ => Val true
    end.
  Definition cmp_int (r : rel) (x y : Z) : bool :=
    match r with
    | REq => x =? y | RNe => negb (x =? y) | RLt => x <? y | RGt => y <? x | RLe => x <=? y | RGe => y <=? x
    end.
  (** cpp_varops_query.py 131-171. Only the variables of the left side are asked for (152-153). *)
  Fixpoint ccond (up : list vars) (lv : list str) (cur : vars) (s : cstate) (q : cond) : cpp bool :=
    match q with
    | CRel r a b =>
        let* ok := all_read up lv cur s a in
        if (ok : bool) then
          let* x := ceval up lv cur s a in let* y := ceval up lv cur s b in Val (cmp_int r x y)
        else Val false
    | CAnd a b => let* x := ccond up lv cur s a in if (x : bool) then ccond up lv cur s b else Val false
    | COr a b => let* x := ccond up lv cur s a in if (x : bool) then Val true else ccond up lv cur s b
    end.

  (** [for (int i = a; i <= stop; i++)]; the end of the loop is computed before every turn.
      Simplification: a loop whose end changes while it runs is left aside. *)
  Fixpoint turns {A} (v : str) (stop : A -> cpp Z) (setl : list (str * Z) -> A -> A) (getl : A -> list (str * Z))
    (body : A -> cpp A) (b : Z) (is_ : list Z) (s : A) : cpp A :=
    match is_ with
    | [] => let* b' := stop s in if b' =? b then Val s else Undefined
    | i :: r =>
        let* b' := stop s in
        if b' =? b then
          let* s1 := body (setl ((v, i) :: getl s) s) in
          turns v stop setl getl body b r (setl (tl (getl s1)) s1)
        else Undefined
    end.
  Definition for_loop {A} (v : str) (start : expr) (stop : A -> cpp Z) (setl : list (str * Z) -> A -> A)
    (getl : A -> list (str * Z)) (body : A -> cpp A) (s : A) : cpp A :=
    match start with
    | ENum _ (NInt a) => let* b := stop s in let* _ := c_int (b + 1) in turns v stop setl getl body b (zrange a b) s
    | _ => Undefined
    end.

  (** ** Lists *)

  (** endf2cpp_aux.py 229-276: the counters cpp_i and cpp_j and the line *)
  Record lrun : Type := { lr_i : Z; lr_j : nat; lr_line : str; lr_st : cstate }.
  Definition lr_with (s : cstate) (l : lrun) : lrun :=
    {| lr_i := lr_i l; lr_j := lr_j l; lr_line := lr_line l; lr_st := s |}.
  Definition lr_loops (l : list (str * Z)) (r : lrun) : lrun := lr_with (with_loops l (lr_st r)) r.

  Definition clist_expr (npl : Z) (up : list vars) (lv : list str) (cur : vars) (e : expr) (l : lrun) : cpp lrun :=
    let* s := run_field up lv TFloat cur e (lr_line l) (lr_j l) (lr_st l) in
    let i := lr_i l + 1 in
    let j := S (lr_j l) in
    if (5 <? j)%nat && (i <? npl)
    then let* (line, s') := next_line s in Val {| lr_i := i; lr_j := 0; lr_line := line; lr_st := s' |}
    else Val {| lr_i := i; lr_j := j; lr_line := lr_line l; lr_st := s |}.
  Fixpoint clist_item (npl : Z) (up : list vars) (lv : list str) (cur : vars) (it : litem) (l : lrun) : cpp lrun :=
    match it with
    | LExpr e => clist_expr npl up lv cur e l
    | LPad => Undefined
    | LLoop v a b body =>
        for_loop v a (fun l => ceval up lv cur (lr_st l) b) lr_loops (fun l => k_loops (lr_st l))
          (clist_body npl up (v :: lv) cur body) l
    end
  with clist_body (npl : Z) (up : list vars) (lv : list str) (cur : vars) (b : lbody) (l : lrun) : cpp lrun :=
    match b with
    | LNil => Val l
    | LCons i r =>
        let* l' := clist_item npl up lv cur i l in
        match reg_litem up lv cur i with
        | Some cur' => clist_body npl up lv cur' r l'
        | None => Undefined
        end
    end.
  Definition run_list (npl : Z) (up : list vars) (lv : list str) (cur : vars) (body : lbody) (s : cstate) : cpp cstate :=
    let* (line, s1) := next_line s in
    let* l := clist_body npl up lv cur body {| lr_i := 0; lr_j := 0; lr_line := line; lr_st := s1 |} in
    if lr_i l =? npl then Val (lr_st l) else Throw.

  (** ** Records *)

  Definition fields_reg (up : list vars) (lv : list str) (cur : vars) (fs : cfields) : vars :=
    match reg_fields up lv cur fs with Some c => c | None => cur end.

  (** 604-614 *)
  Definition run_cont (up : list vars) (lv : list str) (cur : vars) (f : fields6) (s : cstate) : cpp cstate :=
    let* (line, s1) := next_line s in run_fields up lv cur line (cont_fields f) s1.

  (** 610-618 *)
  Definition run_dir (up : list vars) (lv : list str) (cur : vars) (l1 l2 n1 n2 : expr) (s : cstate) : cpp cstate :=
    let* (line, s1) := next_line s in run_fields up lv cur line (dir_fields l1 l2 n1 n2) s1.

  (** 629-691 *)
  Definition run_tab1 (up : list vars) (lv : list str) (cur : vars) (f : fields6) (x y : extvar) (name : option extvar) (s : cstate)
    : cpp cstate :=
    let* (line, s1) := next_line s in
    let* s2 := run_fields up lv cur line (head_fields f) s1 in
    let '(up', cur') := vars_in up (fields_reg up lv cur (head_fields f)) name in
    in_named name (fun s3 =>
      let* nr := cpp_read_int_field line 4 in
      let* np := cpp_read_int_field line 5 in
      let* (t, u, r) := cpp_read_tab1_body (co_accept o) (co_preserve o) (co_validate o) c (Z.to_nat nr) (Z.to_nat np) (k_lines s3) in
      let s4 := with_notes (note_empty nr ++ note_empty np ++ [Ranges (2 * Z.to_nat nr) (k_lines s3); Numbers (taken r (k_lines s3))]) (with_lines r s3) in
      run_columns up' cur' [(fst x, floats (fst u)); (fst y, floats (snd u)); ($"INT", ints (snd t)); ($"NBT", ints (fst t))] s4) s2.

  (** 694-744 *)
  Definition run_tab2 (up : list vars) (lv : list str) (cur : vars) (f : fields6) (name : option extvar) (s : cstate) : cpp cstate :=
    let* (line, s1) := next_line s in
    let* s2 := run_fields up lv cur line (tab2_fields f) s1 in
    let '(up', cur') := vars_in up (fields_reg up lv cur (tab2_fields f)) name in
    in_named name (fun s3 =>
      let* nr := cpp_read_int_field line 4 in
      let* (t, r) := cpp_read_tab2_body (co_validate o) c (Z.to_nat nr) (k_lines s3) in
      let s4 := with_notes (note_empty nr ++ [Ranges (2 * Z.to_nat nr) (k_lines s3); Numbers (taken r (k_lines s3))]) (with_lines r s3) in
      run_columns up' cur' [($"INT", ints (snd t)); ($"NBT", ints (fst t))] s4) s2.

  (** 747-785 *)
  Definition run_listrec (up : list vars) (lv : list str) (cur : vars) (f : fields6) (body : lbody) (name : option extvar) (s : cstate)
    : cpp cstate :=
    let* (line, s1) := next_line s in
    let* s2 := run_fields up lv cur line (cont_fields f) s1 in
    let '(up', cur') := vars_in up (fields_reg up lv cur (cont_fields f)) name in
    in_named name (fun s3 =>
      let* npl := cpp_read_int_field line 4 in
      run_list npl up' lv cur' body (with_notes (note_empty npl) s3)) s2.

  (** ** Instructions *)

  (** 385-420 *)
  Definition ctest (up : list vars) (lv : list str) (cur : vars) (b : branch) (s : cstate) : cpp bool :=
    match b with Branch q _ _ => ccond up lv cur s q end.

  Fixpoint crun (up : list vars) (lv : list str) (cur : vars) (i : instr) (s : cstate) : cpp cstate :=
    match i with
    | ICont _ _ f => run_cont up lv cur f s
    | ITab1 _ f x y name => run_tab1 up lv cur f x y name s
    | ITab2 _ f name => run_tab2 up lv cur f name s
    | IList _ f body name => run_listrec up lv cur f body name s
    | IDir _ l1 l2 n1 n2 => run_dir up lv cur l1 l2 n1 n2 s
    | IText _ fs => run_text fs s
    | ISection head _ body =>
        let '(up', cur') := vars_in up cur (Some head) in
        in_frame head (crun_block up' lv cur' body) s
    | IFor v a b body =>
        for_loop v a (fun s => ceval up lv cur s b) with_loops k_loops (crun_block up (v :: lv) cur body) s
    | IIf first more els =>
        let* t := ctest up lv cur first s in
        if (t : bool) then crun_branch up lv cur first s
        else crun_branches up lv cur more (crun_block up lv cur els) s
    (* code_generator_core.py 284-323: no code for stop *)
    | IStop => Val s
    | ISend => let* r := cpp_read_send_checked (co_accept o) (co_validate o) c (k_lines s) in Val (with_lines r s)
    | _ => Undefined
    end
  with crun_block (up : list vars) (lv : list str) (cur : vars) (b : block) (s : cstate) : cpp cstate :=
    match b with
    | BNil => Val s
    | BCons i r =>
        let* s' := crun up lv cur i s in
        match reg_instr up lv cur i with
        | Some cur' => crun_block up lv cur' r s'
        | None => Undefined
        end
    end
  with crun_branch (up : list vars) (lv : list str) (cur : vars) (b : branch) (s : cstate) : cpp cstate :=
    match b with Branch _ _ body => crun_block up lv cur body s end
  with crun_branches (up : list vars) (lv : list str) (cur : vars) (r : branches) (els : cstate -> cpp cstate) (s : cstate)
    : cpp cstate :=
    match r with
    | RNil => els s
    | RCons b r' =>
        let* t := ctest up lv cur b s in
        if (t : bool) then crun_branch up lv cur b s else crun_branches up lv cur r' els s
    end.
End Run.

(** ** The function of a recipe *)

(** code_generator_parsing.py 171-221: MAT, MF and MT are variables from the beginning *)
Definition start_vars : vars := [($"MAT", KScal TInt); ($"MF", KScal TInt); ($"MT", KScal TInt)].
Definition start_cells (c : ctrl) : list (str * cell) :=
  [($"MAT", CScal (vint (MAT c))); ($"MF", CScal (vint (MF c))); ($"MT", CScal (vint (MT c)))].

(** A recipe begins with a HEAD record and ends with SEND. *)
Fixpoint ends_with_send (b : block) : option block :=
  match b with
  | BNil => None
  | BCons ISend BNil => Some BNil
  | BCons i r => match ends_with_send r with Some r' => Some (BCons i r') | None => None end
  end.
Definition recipe_parts (recipe : block) : option (fields6 * block) :=
  match recipe with
  | BCons (ICont true _ f) r => match ends_with_send r with Some b => Some (f, b) | None => None end
  | _ => None
  end.
(** the variables of the function; [None] if the recipe is outside of the model *)
Definition compile_vars (recipe : block) : option vars :=
  match recipe_parts recipe with
  | Some (f, b) => match reg_fields [] [] start_vars (cont_fields f) with
                   | Some cur => reg_block [] [] cur b
                   | None => None
                   end
  | None => None
  end.

(** the dictionary of the section, the lines behind the SEND record and the notes *)
Definition compiled_run (o : copts) (recipe : block) (lines : list str) : cpp (dict * list str * list note) :=
  match recipe_parts recipe, lines with
  | Some (f, b), l :: _ =>
      let* mat := cpp_read_mat_number l in
      let* mf := cpp_read_mf_number l in
      let* mt := cpp_read_mt_number l in
      let c := {| MAT := mat; MF := mf; MT := mt |} in
      let frame := {| cf_vars := start_cells c; cf_dict := []; cf_shift := [] |} in
      let s0 := {| k_lines := lines; k_cur := frame; k_up := []; k_loops := []; k_notes := [] |} in
      let* s1 := run_cont o c [] [] start_vars f s0 in
      let* s2 := crun_block o c [] [] (fields_reg [] [] start_vars (cont_fields f)) b s1 in
      let* s3 := crun o c [] [] [] ISend s2 in
      Val (store_vars (cf_vars (k_cur s3)) (cf_dict (k_cur s3)), k_lines s3, k_notes s3)
  | _, _ => Undefined
  end.

(** A recipe that is a single TEXT record, as that of the tape head (MF0/MT0, endf_recipe_mf0_mt0.py):
    neither HEAD nor SEND. The variables MAT, MF and MT are those of the line
    (code_generator_parsing.py 195-221). *)
Definition compile_text (recipe : block) : option vars :=
  match recipe with
  | BCons (IText _ fs) BNil => reg_text [] start_vars true 0 fs
  | _ => None
  end.
Definition compiled_text (o : copts) (recipe : block) (lines : list str) : cpp (dict * list str * list note) :=
  match recipe, lines with
  | BCons (IText _ fs) BNil, l :: _ =>
      let* mat := cpp_read_mat_number l in
      let* mf := cpp_read_mf_number l in
      let* mt := cpp_read_mt_number l in
      let c := {| MAT := mat; MF := mf; MT := mt |} in
      let frame := {| cf_vars := start_cells c; cf_dict := []; cf_shift := [] |} in
      let* s := run_text o c fs {| k_lines := lines; k_cur := frame; k_up := []; k_loops := []; k_notes := [] |} in
      Val (store_vars (cf_vars (k_cur s)) (cf_dict (k_cur s)), k_lines s, k_notes s)
  | _, _ => Undefined
  end.
