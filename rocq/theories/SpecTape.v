(** Specification of ENDF-6 tapes: the nesting of materials, files and sections. *)
From Coq Require Import Ascii String ZArith Bool Lia List Sorted.
From Verif Require Import PyBase PyFloat ModelFortran ModelRecords ModelTape SpecFields.
Import ListNotations.
Open Scope Z_scope.

(** the columns [s] hold the integer [v] *)
Definition col_int (s : str) (v : Z) : Prop :=
  (blank s /\ v = 0) \/ (~ blank s /\ int_text s v).

Definition mkctrl (mat mf mt : Z) : ctrl := {| MAT := mat; MF := mf; MT := mt |}.

(** the control columns of line [l] hold MAT, MF, MT; [w] is the field width *)
Definition carries (w : nat) (l : str) (mat mf mt : Z) : Prop :=
  col_int (slice (6 * w) (6 * w + 4) l) mat /\
  col_int (slice (6 * w + 4) (6 * w + 6) l) mf /\
  col_int (slice (6 * w + 6) (6 * w + 9) l) mt.

(** [i]-th field of the line reads as a real, respectively integer zero *)
Definition real_zero (ro : ropts) (i : nat) (l : str) : Prop :=
  exists v, read_fort_float ro (slice (i * r_width ro) (S i * r_width ro) l) = Ok v /\
    match v with NInt z => z = 0 | NFlt f | NEndf f _ => exists s, f = SpecFloat.S754_zero s end.
Definition int_zero (ro : ropts) (i : nat) (l : str) : Prop :=
  col_int (slice (i * r_width ro) (S i * r_width ro) l) 0.

(** a section-end record with the given control numbers (MT=0) *)
Definition end_record (ro : ropts) (l : str) (mat mf : Z) : Prop :=
  ~ blank l /\ carries (r_width ro) l mat mf 0 /\
  real_zero ro 0 l /\ real_zero ro 1 l /\ int_zero ro 2 l /\ int_zero ro 3 l /\
  int_zero ro 4 l /\ int_zero ro 5 l.

(** ** Tapes as trees *)
Record tsection : Type := { s_mt : Z; s_body : list str; s_send : str }.
Record tfile : Type := { f_mf : Z; f_secs : list tsection; f_fend : str }.
Record tmaterial : Type := { m_mat : Z; m_files : list tfile; m_mend : str }.
Record tape : Type := { t_head : str; t_mats : list tmaterial; t_tend : str; t_rest : list str }.

Definition section_ok (ro : ropts) (mat mf : Z) (s : tsection) : Prop :=
  s_mt s <> 0 /\ s_body s <> [] /\
  Forall (fun l => carries (r_width ro) l mat mf (s_mt s)) (s_body s) /\
  end_record ro (s_send s) mat mf.
Definition file_ok (ro : ropts) (mat : Z) (f : tfile) : Prop :=
  f_mf f <> 0 /\ f_secs f <> [] /\ Forall (section_ok ro mat (f_mf f)) (f_secs f) /\
  end_record ro (f_fend f) mat 0.
Definition material_ok (ro : ropts) (m : tmaterial) : Prop :=
  m_mat m <> 0 /\ m_files m <> [] /\ Forall (file_ok ro (m_mat m)) (m_files m) /\
  end_record ro (m_mend m) 0 0.
Definition tape_ok (ro : ropts) (t : tape) : Prop :=
  ~ blank (t_head t) /\ (exists mat, carries (r_width ro) (t_head t) mat 0 0) /\
  Forall (material_ok ro) (t_mats t) /\ end_record ro (t_tend t) (-1) 0 /\
  Forall blank (t_rest t).

(** the lines of a tape *)
Definition section_lines (s : tsection) : list str := s_body s ++ [s_send s].
Definition file_lines (f : tfile) : list str := concat (map section_lines (f_secs f)) ++ [f_fend f].
Definition material_lines (m : tmaterial) : list str := concat (map file_lines (m_files m)) ++ [m_mend m].
Definition tape_lines (t : tape) : list str :=
  t_head t :: concat (map material_lines (t_mats t)) ++ t_tend t :: t_rest t.

(** the lines filed under MF/MT: the bodies of all sections with these numbers, in order *)
Definition tape_section (t : tape) (mf mt : Z) : list str :=
  if (mf =? 0) && (mt =? 0) then [t_head t] else
  concat (map (fun m => concat (map (fun f =>
    if f_mf f =? mf then
      concat (map (fun s => if s_mt s =? mt then s_body s else []) (f_secs f))
    else []) (m_files m))) (t_mats t)).

(** dictionary access *)
Definition assoc {A} (k : Z) (d : list (Z * A)) (v : A) : Prop := In (k, v) d.
Definition holds {A} (d : list (Z * list (Z * A))) (mf mt : Z) (v : A) : Prop :=
  exists sub, In (mf, sub) d /\ In (mt, v) sub.
(** a dictionary: no key twice *)
Definition is_dict {A} (d : list (Z * A)) : Prop := NoDup (map fst d).
Definition is_dict2 {A} (d : list (Z * list (Z * A))) : Prop :=
  is_dict d /\ forall mf sub, In (mf, sub) d -> is_dict sub.

(** default options of the reader concerning the framing *)
Definition strict (ro : ropts) : Prop :=
  r_blank ro = false /\ r_send ro = false /\ r_tpid ro = false.

(** ** Lenient reading *)
Definition ignore_blank (ro : ropts) : ropts :=
  {| r_spaces := r_spaces ro; r_blank := true; r_send := r_send ro; r_tpid := r_tpid ro;
     r_width := r_width ro; r_preserve := r_preserve ro |}.
Definition ignore_send (ro : ropts) : ropts :=
  {| r_spaces := r_spaces ro; r_blank := r_blank ro; r_send := true; r_tpid := r_tpid ro;
     r_width := r_width ro; r_preserve := r_preserve ro |}.
Definition ignore_tpid (ro : ropts) : ropts :=
  {| r_spaces := r_spaces ro; r_blank := r_blank ro; r_send := r_send ro; r_tpid := true;
     r_width := r_width ro; r_preserve := r_preserve ro |}.

(** the second list is the first one with blank lines inserted *)
Inductive blank_inserted : list str -> list str -> Prop :=
| bi_nil : blank_inserted [] []
| bi_keep l a b : blank_inserted a b -> blank_inserted (l :: a) (l :: b)
| bi_ins l a b : blank l -> blank_inserted a b -> blank_inserted a (l :: b).

(** the second list is the first one with some section-end records removed *)
Inductive ends_dropped (ro : ropts) : list str -> list str -> Prop :=
| ed_nil : ends_dropped ro [] []
| ed_keep l a b : ends_dropped ro a b -> ends_dropped ro (l :: a) (l :: b)
| ed_drop l a b mat mf : end_record ro l mat mf -> ends_dropped ro a b -> ends_dropped ro (l :: a) b.

(** ** Selections and written tapes *)

(** MF/MT is listed, by its MF or by its pair *)
Definition listed (l : list selitem) (mf mt : Z) : Prop := In (SMf mf) l \/ In (SMfMt mf mt) l.
Definition selected (exclude include : selection) (mf mt : Z) : Prop :=
  match exclude with
  | Some e => ~ listed e mf mt
  | None => match include with Some i => listed i mf mt | None => True end
  end.

Definition ascending (l : list Z) : Prop := StronglySorted Z.lt l.

(** [out] is [ls] with the columns behind the control columns replaced by the line
    number: [start], [start+1], ..., restarting at [start] after 99999 lines *)
Definition numbered (wo : wopts) (start : Z) (ls out : list str) : Prop :=
  length out = length ls /\
  forall i l, nth_error ls i = Some l ->
    nth_error out i = Some (firstn (6 * w_width wo + 9) l ++
      if w_linenum wo then rjust 5 (str_of_Z (Z.of_nat i mod 99999 + start)) else []).

(** equal up to the columns of the line number *)
Definition same_columns (w : nat) (l l' : str) : Prop := firstn (6 * w + 9) l' = firstn (6 * w + 9) l.

(** a dictionary of verbatim sections: a tape head of one line, and at least one section;
    all lines carry the MF and MT under which they are stored and one common MAT *)
Definition verbatim (w : nat) (mat : Z) (d : mfdic (list str)) : Prop :=
  is_dict2 d /\ mat <> 0 /\
  (forall mf sub, In (mf, sub) d -> sub <> [] /\ 0 <= mf) /\
  (exists h hmat, holds d 0 0 [h] /\ carries w h hmat 0 0 /\ (6 * w + 9 <= length h)%nat /\
     ~ blank (firstn (6 * w + 9) h)) /\
  (forall mt ls, holds d 0 mt ls -> mt = 0) /\
  (exists mf mt ls, mf <> 0 /\ holds d mf mt ls) /\
  (forall mf mt ls, mf <> 0 -> holds d mf mt ls ->
     mt <> 0 /\ ls <> [] /\
     Forall (fun l => carries w l mat mf mt /\ (6 * w + 9 <= length l)%nat) ls).

(** the dictionary with all sections as lists of lines *)
Definition raw_dict {D} (d : mfdic (list str)) : mfdic (section D) :=
  map (fun e => (fst e, map (fun s => (fst s, Raw (snd s))) (snd e))) d.

(** a written section-end record: of full width, with [ns] in the columns of the line number *)
Definition end_line (ro : ropts) (wo : wopts) (ns : str) (l : str) (mat mf : Z) : Prop :=
  end_record ro l mat mf /\
  length l = (6 * w_width wo + 9 + (if w_linenum wo then 5 else 0))%nat /\
  skipn (6 * w_width wo + 9) l = (if w_linenum wo then ns else []).

(** What write() makes of one section: [run_recipe] stands for the recipe interpreter,
    [c] are the control numbers the section leaves behind.
    Raw lines are renumbered (from 0 if the first line carries MF=0), and a SEND record
    with the control numbers of the last line is appended; the lines of a parsed section
    are those of the recipe with all but the last one (the SEND record) numbered. *)
Definition first_number (w : nat) (ls : list str) (start : Z) : Prop :=
  exists l r mat mf mt, ls = l :: r /\ carries w l mat mf mt /\ start = (if mf =? 0 then 0 else 1).
Definition section_output {D} (run_recipe : Z -> Z -> D -> result (list str * ctrl))
    (ro : ropts) (wo : wopts) (mf : Z) (x : section D) (s : tsection) (c : ctrl) : Prop :=
  exists start,
  match x with
  | Raw ls => numbered wo start ls (s_body s) /\ first_number (w_width wo) ls start /\
      carries (w_width wo) (last (s_body s) []) (MAT c) (MF c) (MT c) /\
      end_line ro wo $"99999" (s_send s) (MAT c) (MF c)
  | Parsed d => exists ls, run_recipe mf (s_mt s) d = Ok (ls ++ [s_send s], c) /\
      first_number (w_width wo) ls start /\ numbered wo start ls (s_body s)
  end.
(** the same for MF=0, where there is no SEND record *)
Definition head_output {D} (run_recipe : Z -> Z -> D -> result (list str * ctrl))
    (wo : wopts) (mt : Z) (x : section D) (out : list str) : Prop :=
  exists start,
  match x with
  | Raw ls => numbered wo start ls out /\ first_number (w_width wo) ls start
  | Parsed d => exists ls c, run_recipe 0 mt d = Ok (ls, c) /\
      first_number (w_width wo) ls start /\ numbered wo start ls out
  end.

(** the lines of a written tape *)
Record written : Type := {
  wr_head : list (Z * list str); wr_files : list tfile; wr_mend : str; wr_tend : str
}.
Definition written_lines (t : written) : list str :=
  concat (map snd (wr_head t)) ++ concat (map file_lines (wr_files t)) ++ [wr_mend t; wr_tend t].

(** The skeleton of a tape written from the dictionary [d]: heads and files in ascending
    order, exactly the selected sections, each with its lines and its SEND record, one
    FEND record per file with the MAT of its last section, one MEND, one TEND. *)
Definition skeleton {D} (run_recipe : Z -> Z -> D -> result (list str * ctrl)) (ro : ropts) (wo : wopts)
    (exc inc : selection) (d : mfdic (section D)) (t : written) : Prop :=
  ascending (map fst (wr_head t)) /\
  (forall mt, In mt (map fst (wr_head t)) <-> selected exc inc 0 mt /\ exists x, holds d 0 mt x) /\
  (forall mt out, In (mt, out) (wr_head t) -> exists x, holds d 0 mt x /\ head_output run_recipe wo mt x out) /\
  ascending (0 :: map f_mf (wr_files t)) /\
  (forall mf mt, mf <> 0 ->
     ((exists f s, In f (wr_files t) /\ f_mf f = mf /\ In s (f_secs f) /\ s_mt s = mt) <->
      selected exc inc mf mt /\ exists x, holds d mf mt x)) /\
  Forall (fun f => f_secs f <> [] /\ ascending (map s_mt (f_secs f)) /\
    (forall s, In s (f_secs f) -> exists x c, holds d (f_mf f) (s_mt s) x /\
       section_output run_recipe ro wo (f_mf f) x s c) /\
    exists pre s x c, f_secs f = pre ++ [s] /\ holds d (f_mf f) (s_mt s) x /\
      section_output run_recipe ro wo (f_mf f) x s c /\ end_line ro wo $"    0" (f_fend f) (MAT c) 0) (wr_files t) /\
  end_line ro wo $"    0" (wr_mend t) 0 0 /\ end_line ro wo $"    0" (wr_tend t) (-1) 0.

(** What parse() makes of the lines of a section. If there is a recipe and the section is
    selected, the recipe ([parse_recipe], which may depend on the state [p] of the parser
    object) reads the lines followed by a SEND record; with [nofail] these lines are
    returned if it raises an error of the parser. All other sections are returned as they are. *)
Definition section_parsed {P D} (parse_recipe : P -> Z -> Z -> list str -> result D * P)
    (has_recipe : Z -> Z -> bool) (ro : ropts) (wo : wopts) (nofail : bool) (exc inc : selection)
    (mf mt : Z) (ls : list str) (x : section D) : Prop :=
  let to_parse := has_recipe mf mt = true /\ selected exc inc mf mt in
  (to_parse /\ exists send mat mf' p,
     (exists l r mt', ls = l :: r /\ carries (r_width ro) l mat mf' mt') /\
     end_line ro wo $"99999" send mat mf' /\
     ((exists y p', parse_recipe p mf mt (ls ++ [send]) = (Ok y, p') /\ x = Parsed y) \/
      (exists e p', parse_recipe p mf mt (ls ++ [send]) = (Err e, p') /\
         is_parser_exception e = true /\ nofail = true /\ x = Raw (ls ++ [send])))) \/
  (~ to_parse /\ x = Raw ls).
(** the second list consists of the entries of the first one with [keep], in order *)
Inductive kept {A} (keep : A -> Prop) : list A -> list A -> Prop :=
| kept_nil : kept keep [] []
| kept_keep a l l' : keep a -> kept keep l l' -> kept keep (a :: l) (a :: l')
| kept_drop a l l' : ~ keep a -> kept keep l l' -> kept keep (a :: l) l'.
(** the dictionary without the sections that are not selected *)
Definition only_selected {D} (exc inc : selection) (d d' : mfdic (section D)) : Prop :=
  Forall2 (fun e e' => fst e' = fst e /\ kept (fun s => selected exc inc (fst e) (fst s)) (snd e) (snd e')) d d'.

(** the width of written lines; lines that reach the end of the control columns *)
Definition line_width (wo : wopts) : nat := (6 * w_width wo + 9 + (if w_linenum wo then 5 else 0))%nat.
Definition long_lines (wo : wopts) (ls : list str) : Prop := Forall (fun l => (6 * w_width wo + 9 <= length l)%nat) ls.
