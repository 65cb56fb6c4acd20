(** Model of the functions that the compiler generates for writing a section by a recipe
    (compiler/code_generator_core.py with the functions of code_generator_writing.py 91-335,
    code_generator_writing_core.py 27-70, endf2cpp_aux_writing.py, endf2cpp_aux.py 229-276). The
    recipes are those of ModelCppGen.v; what the generator knows about the variables ([reg_*]) is
    the same for reading and writing. The dictionary [cf_dict] of a frame is the one from which the
    values of the section are taken. *)
From Coq Require Import Ascii String ZArith Bool Lia List.
From Coq Require Import Floats.SpecFloat.
From Verif Require Import PyBase PyFloat ModelFortran ModelRecords ModelNum ModelRecipe ModelInterp ModelCpp ModelCppTab ModelCppArr ModelCppGen.
Import ListNotations.
Open Scope Z_scope.

(** What happened on the way; the program itself does not keep such notes.
    - [Hidden x]: a condition or the end of a loop uses the variable [x] of a section further out,
      and the dictionary of a section further in has an entry of that name.
    - [Unwritten x]: a condition asks for [x], which has not been written, and a dictionary has an
      entry of that name.
    - [Real v e]: the number [v] of the dictionary was written as the floating point number [e].
    - [TextSize n t]: the text [t] was put into a field of [n] columns.
    - [Padding]: the last line of a list is not full. [NoElements]: a list is empty.
    - [Control x]: the dictionary of the section [x] has an entry MAT, or the section has one of the
      names [special_names]. *)
Inductive wnote : Type :=
| Hidden (x : str)
| Unwritten (x : str)
| Real (v : num) (e : endf_float_cpp)
| TextSize (n : nat) (t : str)
| Padding
| NoElements
| Control (x : str).

(** the variables of the program; the text written so far, [linenum], [cpp_draft_line] *)
Record wstate : Type := { w_c : cstate; w_out : str; w_num : Z; w_draft : str; w_notes : list wnote }.
Definition w_with (k : cstate) (s : wstate) : wstate :=
  {| w_c := k; w_out := w_out s; w_num := w_num s; w_draft := w_draft s; w_notes := w_notes s |}.
Definition w_line (l : str) (s : wstate) : wstate :=
  {| w_c := w_c s; w_out := w_out s; w_num := w_num s; w_draft := l; w_notes := w_notes s |}.
Definition w_note (l : list wnote) (s : wstate) : wstate :=
  {| w_c := w_c s; w_out := w_out s; w_num := w_num s; w_draft := w_draft s; w_notes := w_notes s ++ l |}.
Definition w_loops (l : list (str * Z)) (s : wstate) : wstate := w_with (with_loops l (w_c s)) s.

(** code_generator_writing.py 213-217: [cont << cpp_draft_line] *)
Definition flush (s : wstate) : wstate :=
  {| w_c := w_c s; w_out := w_out s ++ w_draft s; w_num := w_num s; w_draft := w_draft s; w_notes := w_notes s |}.

(** ** Values *)

(** code_generator_writing_core.py 27-55, index_shifter.hpp 145-160: the value in the dictionary of
    the section; [KeyError] if there is none. With one index the shifter of the variable makes no
    difference. *)
Definition dict_value (loops : list (str * Z)) (f : cframe) (x : str) (ix : list idx) : cpp val :=
  match ix with
  | [] => match dget (KStr x) (cf_dict f) with Some v => Val v | None => Throw end
  | [q] => let* i := index_value loops q in
           match dget (KStr x) (cf_dict f) with
           | Some (VDict a) => match dget (KInt i) a with Some v => Val v | None => Throw end
           | _ => Throw
           end
  | _ => Undefined
  end.

(** [py::cast<int>]. Simplification: what becomes of an EndfFloat is left open. *)
Definition cast_int (v : val) : cpp Z :=
  match v with
  | VNum (NInt z) => if (- 2 ^ 31 <=? z) && (z <? 2 ^ 31) then Val z else Throw
  | VNum (NEndf _ _) => Undefined
  | _ => Throw
  end.
(** [py::cast<EndfFloatCpp>], endf_float_cpp.hpp 84-105: a Python float or an EndfFloat *)
Definition cast_float (v : val) : cpp (num * endf_float_cpp) :=
  match v with
  | VNum (NFlt f) => Val (NFlt f, {| ef_value := f; ef_orig := [] |})
  | VNum (NEndf f s) => Val (NEndf f s, {| ef_value := f; ef_orig := s |})
  | _ => Throw
  end.
(** [py::cast<std::string>] *)
Definition cast_str (v : val) : cpp str := match v with VStr t => Val t | _ => Throw end.
(** [py::cast<std::vector<...>>] *)
Definition cast_list {A} (f : val -> cpp A) (v : val) : cpp (list A) :=
  match v with VList l => cmapM f l | _ => Throw end.
(** [py::len]. Simplification: of a list; of other values the elements are not taken, see [cast_list]. *)
Definition py_len (v : val) : cpp Z := match v with VList l => c_int (Z.of_nat (length l)) | _ => Throw end.

(** index_shifter.hpp 49-79 without a default value: the value found and the shifter after the call *)
Fixpoint shift_get (ix : list Z) (cur : val) (sh : shifter) : cpp (val * shifter) :=
  match ix with
  | [] => Undefined
  | i :: r =>
      match cur, sh with
      | VDict d, Shift s0 acc next =>
          let s := if acc then s0 else i in
          match r with
          | [] => match dget (KInt i) d with Some v => Val (v, Shift s true next) | None => Throw end
          | _ => let* (levels, lv) := get_next_level (i - s) next in
                 match dget (KInt i) d with
                 | None => Throw
                 | Some v => let* (found, lv') := shift_get r v lv in
                             Val (found, Shift s true (replace (Z.to_nat (i - s)) lv' levels))
                 end
          end
      | _, _ => Throw
      end
  end.
(** index_shifter.hpp 124-160: [get_value(name, indices, py::dict())], an empty dictionary if there
    is no entry of that name *)
Definition store_get (x : str) (ix : list Z) (f : cframe) : cpp (val * cframe) :=
  match dget (KStr x) (cf_dict f) with
  | None => Val (VDict [], f)
  | Some v =>
      match ix with
      | [] => Val (v, f)
      | _ => let sh := match vget x (cf_shift f) with Some sh => sh | None => new_shifter end in
             let* (found, sh') := shift_get ix v sh in
             Val (found, {| cf_vars := cf_vars f; cf_dict := cf_dict f; cf_shift := vset x sh' (cf_shift f) |})
      end
  end.

(** ** Notes about conditions *)

Definition has (x : str) (f : cframe) : bool := match dget (KStr x) (cf_dict f) with Some _ => true | None => false end.
(** the names under which the Python interpreter keeps things of its own in the dictionaries *)
Definition own_name (x : str) : bool := known x [$"__up"; $"__abbrevs"; $"__startidcs"].
Definition special_names : list str := [$"__up"; $"__abbrevs"; $"__startidcs"; $"MAT"; $"MF"; $"MT"].
Fixpoint asked (up : list vars) (lv : list str) (cur : vars) (s : cstate) (e : expr) : list wnote :=
  match e with
  | EVar x ix =>
      if known x lv then [] else
      match resolve x (cur :: up) with
      | None => []
      | Some (n, _) =>
          let fs := k_cur s :: k_up s in
          (if existsb (has x) (firstn n fs) then [Hidden x] else []) ++
          match frame_at n s with
          | None => []
          | Some f => match did_read (k_loops s) f x ix with
                      | Val false => if own_name x || existsb (has x) fs then [Unwritten x] else []
                      | _ => []
                      end
          end
      end
  | ENeg a => asked up lv cur s a
  | EAdd a b | ESub a b | EMul a b => asked up lv cur s a ++ asked up lv cur s b
  | _ => []
  end.
Fixpoint cond_asked (up : list vars) (lv : list str) (cur : vars) (s : cstate) (q : cond) : list wnote :=
  match q with
  | CRel _ a b => asked up lv cur s a ++ asked up lv cur s b
  | CAnd a b => cond_asked up lv cur s a ++
                match ccond up lv cur s a with Val true => cond_asked up lv cur s b | _ => [] end
  | COr a b => cond_asked up lv cur s a ++
               match ccond up lv cur s a with Val false => cond_asked up lv cur s b | _ => [] end
  end.

Section Write.
  Variable o : cwopts.
  Variable preserve : bool.    (* preserve_value_strings *)
  Variable c : ctrl.           (* mat, mf, mt *)

  (** code_generator_writing.py 200-210 *)
  Definition prepare (s : wstate) : wstate :=
    let '(l, n) := cpp_prepare_line (MAT c) (MF c) (MT c) (w_num s) o in
    {| w_c := w_c s; w_out := w_out s; w_num := n; w_draft := l; w_notes := w_notes s |}.

  (** endf2cpp_aux_writing.py 42-47: [cpp_write_field<...>(cpp_draft_line, j, value)] *)
  Definition put_int (j : nat) (z : Z) (s : wstate) : wstate := w_line (cpp_write_int_field (w_draft s) j z) s.
  Definition put_float (j : nat) (v : num) (e : endf_float_cpp) (s : wstate) : cpp wstate :=
    let* l := cpp_write_endf_field o preserve (w_draft s) j e in Val (w_note [Real v e] (w_line l s)).
  (** a value of the dictionary; also the value of the variable *)
  Definition put_value (t : ctype) (j : nat) (v : val) (s : wstate) : cpp (wstate * val) :=
    match t with
    | TInt => let* z := cast_int v in Val (put_int j z s, VNum (NInt z))
    | TFloat => let* (n, e) := cast_float v in let* s' := put_float j n e s in Val (s', VNum (num_of e))
    | TStr => Undefined
    end.
  (** a number of the recipe. Simplification: a floating point number in an integer field is left
      aside. *)
  Definition put_number (t : ctype) (j : nat) (v : num) (s : wstate) : cpp wstate :=
    match t, v with
    | TInt, NInt z => let* z' := c_int z in Val (put_int j z' s)
    | TFloat, (NInt _ | NFlt _) => put_float j v {| ef_value := cpp_double v; ef_orig := [] |} s
    | _, _ => Undefined
    end.
  (** the variables of the program are assigned as in the functions for reading; nothing is checked
      (286-287) *)
  Definition w_assign (x : str) (ix : list idx) (v : val) (s : wstate) : cpp wstate :=
    let* f := assign (k_loops (w_c s)) (k_cur (w_c s)) x ix v in Val (w_with (with_cur f (w_c s)) s).
  Definition w_assign_new (x : str) (ix : list idx) (v : val) (s : wstate) : cpp wstate :=
    let* seen := did_read (k_loops (w_c s)) (k_cur (w_c s)) x ix in
    if (seen : bool) then Val s else w_assign x ix v s.

  (** 91-108 *)
  Definition wfield (up : list vars) (lv : list str) (t : ctype) (cur : vars) (e : expr) (j : nat) (s : wstate) : cpp wstate :=
    match plan_of up lv cur t e with
    | None => Undefined
    | Some (Check v) => put_number t j v s
    | Some (Assign x ix) =>
        let* v := dict_value (k_loops (w_c s)) (k_cur (w_c s)) x ix in
        let* (s1, w) := put_value t j v s in w_assign x ix w s1
    | Some (AssignOrCheck x ix) =>
        let* v := dict_value (k_loops (w_c s)) (k_cur (w_c s)) x ix in
        let* (s1, w) := put_value t j v s in w_assign_new x ix w s1
    end.
  Fixpoint wfields (up : list vars) (lv : list str) (cur : vars) (fs : cfields) (s : wstate) : cpp wstate :=
    match fs with
    | [] => Val s
    | (j, t, e) :: r =>
        match reg_field up lv t cur e with
        | None => Undefined
        | Some cur' => let* s' := wfield up lv t cur e j s in wfields up lv cur' r s'
        end
    end.

  (** 111-124, endf2cpp_aux_writing.py 50-52: [cpp_draft_line.replace(start, length, value)]; the
      variables of a TEXT record are new (ModelCppGen.v) *)
  Fixpoint wtexts (first : bool) (ofs : nat) (fs : list textfield) (s : wstate) : cpp wstate :=
    match fs with
    | [] => Val s
    | (u, n) :: r =>
        match text_length first (u, n) with
        | None => Undefined
        | Some len =>
            let* s' :=
              match u with
              | None => Val s
              | Some (x, ix) =>
                  let* v := dict_value (k_loops (w_c s)) (k_cur (w_c s)) x ix in
                  let* t := cast_str v in
                  w_assign x ix (VStr t) (w_note [TextSize len t] (w_line (c_replace (w_draft s) ofs len t) s))
              end in
            wtexts false (ofs + len) r s'
        end
    end.

  (** the columns of a table; nothing is checked *)
  Fixpoint wcolumns (up : list vars) (cur : vars) (cols : list (str * val)) (s : wstate) : wstate :=
    match cols with
    | [] => s
    | (x, v) :: r =>
        let new := w_with (with_cur (set_cell x (CScal v) (k_cur (w_c s))) (w_c s)) s in
        let s' :=
          match vget x (cf_vars (k_cur (w_c s))), resolve x (cur :: up) with
          | Some _, Some _ => s
          | _, _ => new
          end in
        wcolumns up (kadd x KTab cur) r s'
    end.

  (** ** Sections *)

  (** endf2cpp_aux_writing.py 79-105, code_generator_writing.py 235-279. Simplification: an entry
      that is not a dictionary is left aside. *)
  Definition in_wframe (u : extvar) (body : wstate -> cpp wstate) (s : wstate) : cpp wstate :=
    let '(x, q) := u in
    let* ix := cmapM (index_value (k_loops (w_c s))) q in
    let* (found, f) := store_get x ix (k_cur (w_c s)) in
    match found with
    | VDict d =>
        let note := if known x special_names then [Control x] else match dget (KStr $"MAT") d with Some _ => [Control x] | None => [] end in
        let inner := {| cf_vars := []; cf_dict := d; cf_shift := [] |} in
        let* s1 := body (w_note note (w_with (with_frames inner (f :: k_up (w_c s)) (w_c s)) s)) in
        match k_up (w_c s1) with
        | f1 :: up => Val (w_with (with_frames f1 up (w_c s1)) s1)
        | [] => Undefined
        end
    | _ => Undefined
    end.
  Definition in_wnamed (name : option extvar) (body : wstate -> cpp wstate) : wstate -> cpp wstate :=
    match name with None => body | Some u => in_wframe u body end.

  (** ** Lists *)

  (** endf2cpp_aux.py 229-276: the counters cpp_i and cpp_j *)
  Record wlrun : Type := { wl_i : Z; wl_j : nat; wl_st : wstate }.
  Definition wl_loops (l : list (str * Z)) (r : wlrun) : wlrun :=
    {| wl_i := wl_i r; wl_j := wl_j r; wl_st := w_loops l (wl_st r) |}.
  Definition wl_note (n : list wnote) (r : wlrun) : wlrun :=
    {| wl_i := wl_i r; wl_j := wl_j r; wl_st := w_note n (wl_st r) |}.
  Definition wlist_expr (npl : Z) (up : list vars) (lv : list str) (cur : vars) (e : expr) (l : wlrun) : cpp wlrun :=
    let* s := wfield up lv TFloat cur e (wl_j l) (wl_st l) in
    let i := wl_i l + 1 in
    let j := S (wl_j l) in
    if (5 <? j)%nat && (i <? npl)
    then Val {| wl_i := i; wl_j := 0; wl_st := prepare (flush s) |}
    else Val {| wl_i := i; wl_j := j; wl_st := s |}.
  Fixpoint wlist_item (npl : Z) (up : list vars) (lv : list str) (cur : vars) (it : litem) (l : wlrun) : cpp wlrun :=
    match it with
    | LExpr e => wlist_expr npl up lv cur e l
    | LPad => Undefined
    | LLoop v a b body =>
        for_loop v a (fun l => ceval up lv cur (w_c (wl_st l)) b) wl_loops (fun l => k_loops (w_c (wl_st l)))
          (wlist_body npl up (v :: lv) cur body) (wl_note (asked up lv cur (w_c (wl_st l)) b) l)
    end
  with wlist_body (npl : Z) (up : list vars) (lv : list str) (cur : vars) (b : lbody) (l : wlrun) : cpp wlrun :=
    match b with
    | LNil => Val l
    | LCons i r =>
        let* l' := wlist_item npl up lv cur i l in
        match reg_litem up lv cur i with
        | Some cur' => wlist_body npl up lv cur' r l'
        | None => Undefined
        end
    end.
  Definition list_notes (npl : Z) : list wnote :=
    (if npl =? 0 then [NoElements] else []) ++ (if Z.rem npl 6 =? 0 then [] else [Padding]).
  Definition wlist (npl : Z) (up : list vars) (lv : list str) (cur : vars) (body : lbody) (s : wstate) : cpp wstate :=
    let* l := wlist_body npl up lv cur body {| wl_i := 0; wl_j := 0; wl_st := prepare s |} in
    if wl_i l =? npl then Val (w_note (list_notes npl) (flush (wl_st l))) else Throw.

  (** the number of elements of a list: the value of the fifth field, taken from the dictionary of
      the section in which the statement stands *)
  Definition npl_value (e : expr) (s : wstate) : cpp Z :=
    match e with
    | ENum _ (NInt z) => c_int z
    | EVar x ix | EIncons x ix =>
        let* v := dict_value (k_loops (w_c s)) (k_cur (w_c s)) x ix in cast_int v
    | _ => Undefined
    end.

  (** ** Records *)

  (** code_generator_core.py 599-607 *)
  Definition wcont (up : list vars) (lv : list str) (cur : vars) (f : fields6) (s : wstate) : cpp wstate :=
    let* s1 := wfields up lv cur (cont_fields f) (prepare s) in Val (flush s1).
  (** 610-618 *)
  Definition wdir (up : list vars) (lv : list str) (cur : vars) (l1 l2 n1 n2 : expr) (s : wstate) : cpp wstate :=
    let* s1 := wfields up lv cur (dir_fields l1 l2 n1 n2) (prepare s) in Val (flush s1).
  (** 513-541 *)
  Definition wtext (fs : list textfield) (s : wstate) : cpp wstate :=
    let* s1 := wtexts true 0 fs (prepare s) in Val (flush s1).
  Definition reals (l : list (num * endf_float_cpp)) : list wnote := map (fun p => Real (fst p) (snd p)) l.
  (** 621-691, code_generator_writing.py 127-151, 183-197 *)
  Definition wtab1 (up : list vars) (lv : list str) (cur : vars) (f : fields6) (x y : extvar) (name : option extvar) (s : wstate)
    : cpp wstate :=
    let* s2 := wfields up lv cur (head_fields f) (prepare s) in
    let '(up', cur') := vars_in up (fields_reg up lv cur (head_fields f)) name in
    in_wnamed name (fun s3 =>
      let get x := dict_value (k_loops (w_c s3)) (k_cur (w_c s3)) x [] in
      let* vi := get $"INT" in
      let* nr := py_len vi in
      let* vx := get (fst x) in
      let* np := py_len vx in
      let s4 := flush (put_int 5 np (put_int 4 nr s3)) in
      let* xs := cast_list cast_float vx in
      let* vy := get (fst y) in
      let* ys := cast_list cast_float vy in
      let* int := cast_list cast_int vi in
      let* vn := get $"NBT" in
      let* nbt := cast_list cast_int vn in
      let* (t, n) := cpp_write_tab1_body o preserve c nbt int (map snd xs) (map snd ys) (w_num s4) in
      let s5 := {| w_c := w_c s4; w_out := w_out s4; w_num := n; w_draft := t; w_notes := w_notes s4 ++ reals xs ++ reals ys |} in
      Val (flush (wcolumns up' cur' [(fst x, floats (map snd xs)); (fst y, floats (map snd ys)); ($"INT", ints int); ($"NBT", ints nbt)] s5))) s2.
  (** 694-744, code_generator_writing.py 154-173 *)
  Definition wtab2 (up : list vars) (lv : list str) (cur : vars) (f : fields6) (name : option extvar) (s : wstate) : cpp wstate :=
    let* s2 := wfields up lv cur (tab2_fields f) (prepare s) in
    let '(up', cur') := vars_in up (fields_reg up lv cur (tab2_fields f)) name in
    in_wnamed name (fun s3 =>
      let get x := dict_value (k_loops (w_c s3)) (k_cur (w_c s3)) x [] in
      let* vi := get $"INT" in
      let* nr := py_len vi in
      let s4 := flush (put_int 4 nr s3) in
      let* int := cast_list cast_int vi in
      let* vn := get $"NBT" in
      let* nbt := cast_list cast_int vn in
      let* (t, n) := cpp_write_tab2_body o c nbt int (w_num s4) in
      let s5 := {| w_c := w_c s4; w_out := w_out s4; w_num := n; w_draft := t; w_notes := w_notes s4 |} in
      Val (flush (wcolumns up' cur' [($"INT", ints int); ($"NBT", ints nbt)] s5))) s2.
  (** 747-790. The fifth field is written twice, with the same value. *)
  Definition wlistrec (up : list vars) (lv : list str) (cur : vars) (f : fields6) (body : lbody) (name : option extvar) (s : wstate)
    : cpp wstate :=
    let* s2 := wfields up lv cur (cont_fields f) (prepare s) in
    let* n1 := npl_value (f_n1 f) s2 in
    let s3 := flush (put_int 4 n1 s2) in
    let '(up', cur') := vars_in up (fields_reg up lv cur (cont_fields f)) name in
    in_wnamed name (fun s4 => let* npl := npl_value (f_n1 f) s4 in wlist npl up' lv cur' body s4) s3.

  (** ** Instructions *)

  Definition wtest (up : list vars) (lv : list str) (cur : vars) (b : branch) (s : wstate) : cpp (bool * wstate) :=
    match b with
    | Branch q _ _ => let* t := ccond up lv cur (w_c s) q in Val (t, w_note (cond_asked up lv cur (w_c s) q) s)
    end.
  Fixpoint wrun (up : list vars) (lv : list str) (cur : vars) (i : instr) (s : wstate) : cpp wstate :=
    match i with
    | ICont _ _ f => wcont up lv cur f s
    | ITab1 _ f x y name => wtab1 up lv cur f x y name s
    | ITab2 _ f name => wtab2 up lv cur f name s
    | IList _ f body name => wlistrec up lv cur f body name s
    | IDir _ l1 l2 n1 n2 => wdir up lv cur l1 l2 n1 n2 s
    | IText _ fs => wtext fs s
    | ISection head _ body =>
        let '(up', cur') := vars_in up cur (Some head) in
        in_wframe head (wrun_block up' lv cur' body) s
    | IFor v a b body =>
        for_loop v a (fun s => ceval up lv cur (w_c s) b) w_loops (fun s => k_loops (w_c s)) (wrun_block up (v :: lv) cur body)
          (w_note (asked up lv cur (w_c s) b) s)
    | IIf first more els =>
        let* (t, s1) := wtest up lv cur first s in
        if (t : bool) then wrun_branch up lv cur first s1
        else wrun_branches up lv cur more (wrun_block up lv cur els) s1
    | IStop => Val s
    (* code_generator_core.py 593-596 *)
    | ISend => let* l := cpp_prepare_send (MAT c) (MF c) o in Val (flush (w_line l s))
    | _ => Undefined
    end
  with wrun_block (up : list vars) (lv : list str) (cur : vars) (b : block) (s : wstate) : cpp wstate :=
    match b with
    | BNil => Val s
    | BCons i r =>
        let* s' := wrun up lv cur i s in
        match reg_instr up lv cur i with
        | Some cur' => wrun_block up lv cur' r s'
        | None => Undefined
        end
    end
  with wrun_branch (up : list vars) (lv : list str) (cur : vars) (b : branch) (s : wstate) : cpp wstate :=
    match b with Branch _ _ body => wrun_block up lv cur body s end
  with wrun_branches (up : list vars) (lv : list str) (cur : vars) (r : branches) (els : wstate -> cpp wstate) (s : wstate)
    : cpp wstate :=
    match r with
    | RNil => els s
    | RCons b r' =>
        let* (t, s1) := wtest up lv cur b s in
        if (t : bool) then wrun_branch up lv cur b s1 else wrun_branches up lv cur r' els s1
    end.
End Write.

(** ** The function of a recipe *)

(** code_generator_writing.py 293-335: MF is a constant of the function, MT also unless the recipe
    is for several MT numbers; [linenum] begins with 0 (220-231) *)
Definition entry_int (x : str) (d : dict) : cpp Z :=
  match dget (KStr x) d with Some v => cast_int v | None => Throw end.
Definition write_start (mf : Z) (mt : option Z) (d : dict) : cpp (ctrl * wstate) :=
  let* mat := entry_int $"MAT" d in
  let* mt' := match mt with Some m => Val m | None => entry_int $"MT" d end in
  let c := {| MAT := mat; MF := mf; MT := mt' |} in
  let d' := dset (KStr $"MT") (vint mt') (dset (KStr $"MF") (vint mf) (dset (KStr $"MAT") (vint mat) d)) in
  let frame := {| cf_vars := start_cells c; cf_dict := d'; cf_shift := [] |} in
  let k := {| k_lines := []; k_cur := frame; k_up := []; k_loops := []; k_notes := [] |} in
  Val (c, {| w_c := k; w_out := []; w_num := if (mf =? 0) && (mt' =? 0) then -1 else 0; w_draft := []; w_notes := [] |}).
(** the text of the section and the notes *)
Definition compiled_write (o : cwopts) (preserve : bool) (recipe : block) (mf : Z) (mt : option Z) (d : dict)
  : cpp (str * list wnote) :=
  match recipe_parts recipe with
  | Some (f, b) =>
      let* (c, s0) := write_start mf mt d in
      let* s1 := wcont o preserve c [] [] start_vars f s0 in
      let* s2 := wrun_block o preserve c [] [] (fields_reg [] [] start_vars (cont_fields f)) b s1 in
      let* s3 := wrun o preserve c [] [] [] ISend s2 in
      Val (w_out s3, w_notes s3)
  | None => Undefined
  end.
(** a recipe that is a single TEXT record, as that of the tape head *)
Definition compiled_write_text (o : cwopts) (preserve : bool) (recipe : block) (mf : Z) (mt : option Z) (d : dict)
  : cpp (str * list wnote) :=
  match recipe with
  | BCons (IText _ fs) BNil =>
      let* (c, s0) := write_start mf mt d in
      let* s1 := wtext o c fs s0 in
      Val (w_out s1, w_notes s1)
  | _ => Undefined
  end.
