(** Model of the generated C++ reader of a whole file: the master function
    (compiler/code_generator_parsing.py 230-424), the choice between parsing and copying a section
    (compiler/code_generator_parsing_core.py 44-67) and read_section_verbatim
    (compiler/cpp_templates/module_header_reading.hpp 624-659). *)
From Coq Require Import Ascii String ZArith Bool Lia List.
From Verif Require Import PyBase PyFloat ModelFortran ModelRecords ModelTape ModelCpp ModelCppTab.
Import ListNotations.
Open Scope Z_scope.

(** The stream is the list of the lines that are still to be read, without line breaks; going
    back to a position ([seekg]) is going back to the list of that position.
    Simplification: the input ends with a line break, so that reading behind the last line gives
    an empty line, of which nothing is defined. *)

(** the options of the reader that concern the file (module_header_reading.hpp, ParsingOptions) *)
Record croopts : Type := {
  cr_accept : bool;      (* accept_spaces *)
  cr_validate : bool;    (* validate_control_records *)
  cr_blank : bool;       (* ignore_blank_lines *)
  cr_send : bool;        (* ignore_send_records *)
  cr_tpid : bool         (* ignore_missing_tpid *)
}.

(** 635-640: a carriage return at the end is removed; the last character of an empty line is
    not defined *)
Definition carriage_return : ascii := ascii_of_nat 13.
Definition drop_cr (line : str) : cpp str :=
  match line with
  | [] => Undefined
  | _ => Val (if chr_eqb (last line zero_chr) carriage_return then removelast line else line)
  end.
(** [std::stoi(line.substr(pos, len))]: an exception if the line is shorter than [pos] *)
Definition substr_int (line : str) (pos len : nat) : cpp Z :=
  if (length line <? pos)%nat then Throw else stoi (slice pos (pos + len) line).

(** 633-647, the loop: the lines of the section, the lines from the first other line on, MF and
    MT of that line *)
Fixpoint verbatim_scan (validate : bool) (c : ctrl) (lines : list str)
  : cpp (list str * list str * Z * Z) :=
  match lines with
  | [] => Undefined
  | l :: r =>
      let* _ := cpp_read_line validate c lines in
      let* line := drop_cr l in
      let* curmf := substr_int line 70 2 in
      let* curmt := substr_int line 72 3 in
      if negb (curmf =? MF c) || negb (curmt =? MT c) then Val ([], lines, curmf, curmt)
      else let* (sec, rest, emf, emt) := verbatim_scan validate c r in
           Val ((line ++ [newline]) :: sec, rest, emf, emt)
  end.
(** 624-659. With [is_first] the stream goes back to the position behind the last line of the
    section; without such a line the position has no value. *)
Definition read_section_verbatim (validate : bool) (c : ctrl) (is_first : bool) (lines : list str)
  : cpp (list str * list str) :=
  let* (sec, rest, emf, emt) := verbatim_scan validate c lines in
  if negb is_first && (negb (emf =? MF c) || negb (emt =? 0)) then Throw
  else if is_first then match sec with [] => Undefined | _ => Val (sec, rest) end
  else Val (sec, tl rest).

(** [mfmt_dict[mf][mt] = x] *)
Definition dic_set {A} (d : mfdic A) (mf mt : Z) (x : A) : mfdic A :=
  zset mf (zset mt x (match zget mf d with Some s => s | None => [] end)) d.

(** 230-276. All numbers are passed as [bool], so [last_mf >= mf] compares 0 and 1. *)
Definition check_end_records (o : croopts) (fend mend tend : bool) (mf last_mf : Z) (seen tpid : bool) : cpp unit :=
  let b z := negb (z =? 0) in
  if negb (cr_send o) && (mend || tend) then Throw
  else if negb (cr_send o) && (fend && negb seen) then Throw
  else if negb (cr_send o) && (fend && (b last_mf || negb (b mf))) then Throw
  else if negb tpid && negb (cr_tpid o) then Throw
  else Val tt.

Section MasterRead.
  Context {D : Type}.
  (** the generated function of a recipe: from the lines it is given the data of the section and
      the lines behind its SEND record; and whether there is a function for MF/MT *)
  Variable run_cpp : Z -> Z -> list str -> cpp (D * list str).
  Variable registered : Z -> Z -> bool.
  Variable o : croopts.
  Variable exclude include : selection.

  (** the variables of the loop (286-303). [last_mf] has no value before the end of the first
      line, and is not looked at before that. *)
  Record rstate : Type := {
    rs_first : bool; rs_seen : bool; rs_tpid : bool;
    rs_fend : bool; rs_mend : bool; rs_tend : bool;
    rs_last : Z; rs_dict : mfdic (section D)
  }.
  (** what happens at the end of each turn (410-414) *)
  Definition turn (mf : Z) (seen tpid fend mend tend : bool) (d : mfdic (section D)) : rstate :=
    {| rs_first := false; rs_seen := seen; rs_tpid := tpid; rs_fend := fend; rs_mend := mend; rs_tend := tend;
       rs_last := mf; rs_dict := d |}.

  (** one turn of the loop (304-415); [lines] are the lines from the line of this turn on.
      The test for MF=0/MT=0 has the additional condition [is_firstline] (351-354). The statement
      [after_fend = false] for a MEND record (388) is overwritten by the next one and is not in
      the generated program. *)
  Definition read_turn (st : rstate) (l : str) (r : list str) : cpp (list str * rstate) :=
    let* mat := cpp_read_mat_number l in
    let* mf := cpp_read_mf_number l in
    let* mt := cpp_read_mt_number l in
    let c := {| MAT := mat; MF := mf; MT := mt |} in
    let head := (mf =? 0) && (mt =? 0) in
    if registered mf mt && (negb head || rs_first st) then
      let tpid := head || rs_tpid st in
      let* _ := check_end_records o (rs_fend st) (rs_mend st) (rs_tend st) mf (rs_last st) (rs_seen st) tpid in
      let first := rs_first st && (mt =? 0) in
      let* (x, rest) :=
        (if should_parse_section mf mt exclude include then
           let* (d, rest) := run_cpp mf mt (l :: r) in Val (Parsed d, rest)
         else
           let* (sec, rest) := read_section_verbatim (cr_validate o) c first (l :: r) in Val (Raw sec, rest)) in
      Val (rest, turn mf true tpid false (rs_mend st) (rs_tend st) (dic_set (rs_dict st) mf mt x))
    else if negb (mf =? 0) && negb (mt =? 0) then
      (* no [seekg]: the line of this turn has been consumed *)
      let* (sec, rest) := read_section_verbatim (cr_validate o) c (rs_first st) r in
      Val (rest, turn mf (rs_seen st) (rs_tpid st) (rs_fend st) (rs_mend st) (rs_tend st)
                      (dic_set (rs_dict st) mf mt (Raw sec)))
    else if all_spaces l then
      if cr_blank o then Val (r, turn mf (rs_seen st) (rs_tpid st) (rs_fend st) (rs_mend st) (rs_tend st) (rs_dict st))
      else Throw
    else
      let* is_tend := (if rs_mend st then cpp_is_tend_record (cr_accept o) (cr_validate o) l else Val false) in
      if (is_tend : bool) then Val (r, turn mf (rs_seen st) (rs_tpid st) (rs_fend st) false true (rs_dict st)) else
      let* is_mend := (if rs_fend st then cpp_is_mend_record (cr_accept o) (cr_validate o) l else Val false) in
      if (is_mend : bool) then Val (r, turn mf (rs_seen st) (rs_tpid st) (rs_fend st) true (rs_tend st) (rs_dict st)) else
      let* is_fend := cpp_is_fend_record (cr_accept o) (cr_validate o) mat l in
      if (is_fend : bool) then Val (r, turn mf (rs_seen st) (rs_tpid st) true (rs_mend st) (rs_tend st) (rs_dict st))
      else Throw.

  (** the loop; [fuel] bounds the number of turns (each turn consumes a line, as long as the
      functions of the recipes do) *)
  Fixpoint read_loop (fuel : nat) (st : rstate) (lines : list str) : cpp (mfdic (section D)) :=
    match lines with
    | [] => Val (rs_dict st)
    | l :: r =>
        match fuel with
        | O => Undefined
        | S n => let* (rest, st') := read_turn st l r in read_loop n st' rest
        end
    end.
  Definition read_start : rstate :=
    {| rs_first := true; rs_seen := false; rs_tpid := false; rs_fend := false; rs_mend := false; rs_tend := false;
       rs_last := 0; rs_dict := [] |}.
  Definition master_read (lines : list str) : cpp (mfdic (section D)) :=
    read_loop (length lines) read_start lines.
End MasterRead.
