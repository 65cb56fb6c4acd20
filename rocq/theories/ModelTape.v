(** Model of the tape framing: split_sections (interpreter/endf_utils.py 458-589),
    section selection (interpreter/endf_parser.py 887-907) and the drivers of
    parse/write (interpreter/endf_parser.py 909-1146) around the recipe interpreter. *)
From Coq Require Import Ascii String ZArith Bool Lia List.
From Verif Require Import PyBase PyFloat ModelFortran ModelRecords.
Import ListNotations.
Open Scope Z_scope.

(** [mfdic]: MF -> MT -> lines, in insertion order *)
Definition mtdic (A : Type) := list (Z * A).
Definition mfdic (A : Type) := list (Z * mtdic A).

(** association-list dictionary with integer keys *)
Fixpoint zget {A} (k : Z) (d : list (Z * A)) : option A :=
  match d with
  | [] => None
  | (k', v) :: r => if k =? k' then Some v else zget k r
  end.
(** assignment: replaces in place or appends *)
Fixpoint zset {A} (k : Z) (v : A) (d : list (Z * A)) : list (Z * A) :=
  match d with
  | [] => [(k, v)]
  | (k', v') :: r => if k =? k' then (k', v) :: r else (k', v') :: zset k v r
  end.

(** [mfdic.setdefault(mf, {}).setdefault(mt, []).append(line)], endf_utils.py 545-546 *)
Definition dic_append (d : mfdic (list str)) (mf mt : Z) (line : str) : mfdic (list str) :=
  let sub := match zget mf d with Some s => s | None => [] end in
  let cur := match zget mt sub with Some l => l | None => [] end in
  zset mf (zset mt (cur ++ [line]) sub) d.

(** state of the loop: endf_utils.py 503-507; the [last_*] values are only
    inspected when [sec_level >= 1], initial values are arbitrary *)
Record split_state : Type := {
  sec_level : Z; last_mat : Z; last_mf : Z; last_mt : Z; sec_dic : mfdic (list str)
}.

Definition with_level (st : split_state) (l : Z) : split_state :=
  {| sec_level := l; last_mat := last_mat st; last_mf := last_mf st; last_mt := last_mt st;
     sec_dic := sec_dic st |}.

(** one iteration of the loop, endf_utils.py 509-579 *)
Definition split_step (ro : ropts) (st : split_state) (line : str) : result split_state :=
  if is_blank line then
    if sec_level st =? -1 then Ok st
    else if r_blank ro then Ok st
    else Err BlankLineError
  else if sec_level st =? -1 then Err UnexpectedControlRecordError
  else
    do d <- read_ctrl ro line;
    let mat := MAT d in let mf := MF d in let mt := MT d in
    let is_regular := negb (mat =? 0) && negb (mf =? 0) && negb (mt =? 0) in
    if is_regular && negb (r_send ro) &&
       (((3 <=? sec_level st) && negb (last_mt st =? mt))
        || ((2 <=? sec_level st) && negb (last_mf st =? mf))
        || ((1 <=? sec_level st) && negb (last_mat st =? mat)))
    then Err UnexpectedControlRecordError
    else if is_regular then
      Ok {| sec_level := 3; last_mat := mat; last_mf := mf; last_mt := mt;
            sec_dic := dic_append (sec_dic st) mf mt line |}
    else if r_send ro then Ok st
    else if (2 <=? sec_level st) && negb (mat =? last_mat st) then Err UnexpectedControlRecordError
    else if (sec_level st =? 1) && negb (mat =? 0) then Err UnexpectedControlRecordError
    else if (3 <=? sec_level st) && negb (mf =? last_mf st) then Err UnexpectedControlRecordError
    else if (sec_level st <? 3) && negb (mf =? 0) then Err UnexpectedControlRecordError
    else if (sec_level st =? 0) && negb (mat =? -1) then Err UnexpectedControlRecordError
    else
      do _ <- read_send ro [line] 0;
      Ok (with_level st (sec_level st - 1)).

Fixpoint split_loop (ro : ropts) (st : split_state) (lines : list str) : result split_state :=
  match lines with
  | [] => Ok st
  | l :: r => do st' <- split_step ro st l; split_loop ro st' r
  end.

(** endf_utils.py 482-486: skip the leading blank lines; result: the lines from the
    first non-blank one on *)
Fixpoint skip_leading_blank (ro : ropts) (lines : list str) : result (list str) :=
  match lines with
  | [] => Err IndexError
  | l :: r => if is_blank l then
                if r_blank ro then skip_leading_blank ro r else Err BlankLineError
              else Ok lines
  end.

(** endf_utils.py 458-589 *)
Definition split_sections (ro : ropts) (lines : list str) : result (mfdic (list str)) :=
  do rest <- skip_leading_blank ro lines;
  do l0 <- get_line lines 0;
  do head <- get_line rest 0;
  do th <- read_ctrl ro head;
  let st0 d := {| sec_level := 0; last_mat := 0; last_mf := 0; last_mt := 0; sec_dic := d |} in
  do st <-
    (if negb (MF th =? 0) || negb (MT th =? 0) then
       if negb (r_tpid ro) then Err UnexpectedControlRecordError
       else split_loop ro (st0 []) rest
     else
       (* line 501 appends lines[0], not the line that was examined *)
       split_loop ro (st0 (dic_append [] (MF th) (MT th) l0)) (tl rest));
  if negb (r_send ro) && (0 <=? sec_level st) then Err UnexpectedEndOfInputError
  else Ok (sec_dic st).

(** ** Selection of sections *)

(** an element of an include/exclude argument: MF or (MF, MT).
    Simplification: elements of other shapes never match and are left out. *)
Inductive selitem : Type := SMf (mf : Z) | SMfMt (mf mt : Z).
Definition selection := option (list selitem).

Definition sel_mf (mf : Z) (l : list selitem) : bool :=
  existsb (fun x => match x with SMf m => m =? mf | _ => false end) l.
Definition sel_mfmt (mf mt : Z) (l : list selitem) : bool :=
  existsb (fun x => match x with SMfMt m t => (m =? mf) && (t =? mt) | _ => false end) l.

(** endf_parser.py 887-907; a plain int argument is the one-element tuple (889-895) *)
Definition should_skip_section (mf mt : Z) (exclude include : selection) : bool :=
  match exclude with
  | None =>
      match include with
      | Some inc => negb (sel_mf mf inc) && negb (sel_mfmt mf mt inc)
      | None => false
      end
  | Some exc => sel_mf mf exc || sel_mfmt mf mt exc
  end.

(** ** The driver of write *)

(** [sorted(dict)]: the entries in ascending key order (keys of a dict are distinct) *)
Fixpoint zinsert {A} (k : Z) (v : A) (d : list (Z * A)) : list (Z * A) :=
  match d with
  | [] => [(k, v)]
  | (k', v') :: r => if k <=? k' then (k, v) :: d else (k', v') :: zinsert k v r
  end.
Definition zsort {A} (d : list (Z * A)) : list (Z * A) :=
  fold_right (fun kv acc => zinsert (fst kv) (snd kv) acc) [] d.

(** A section of the dictionary handed to write: parsed data or raw lines.
    [D] is the type of parsed data. *)
Inductive section (D : Type) : Type :=
| Raw (lines : list str)
| Parsed (data : D).
Arguments Raw {D} lines.
Arguments Parsed {D} data.

Section WriteDriver.
  Context {D : Type}.
  (** the recipe interpreter in write mode (endf_parser.py 1019-1069): lines including
      the final SEND record (none for MF=0), and the MAT/MF/MT of the section.
      Raw sections never reach it. *)
  Variable run_recipe : Z -> Z -> D -> result (list str * ctrl).
  Variable ro : ropts.
  Variable wo : wopts.
  Variable zero_as_blank : bool.
  Variable exclude include : selection.

  (** lines of one section, endf_parser.py 1019-1116. [self.datadic] after the
      section is represented by its control numbers. *)
  Definition write_section (mf mt : Z) (s : section D) : result (list str * ctrl) :=
    match s with
    | Parsed d =>
        do (ls, c) <- run_recipe mf mt d;
        if mf =? 0 then
          do num <- add_linenumbers_to_section wo ls; Ok (num, c)
        else
          do num <- add_linenumbers_to_section wo (removelast ls);
          Ok (num ++ [last ls []], c)
    | Raw ls =>
        do num <- add_linenumbers_to_section wo ls;
        do c <- read_ctrl ro (last num []);
        if mf =? 0 then Ok (num, c)
        else do snd <- write_send wo zero_as_blank c; Ok (num ++ snd, c)
    end.

  (** inner loop, endf_parser.py 1013-1117: lines and the last control numbers
      ([None]: nothing written) *)
  Fixpoint write_mts (mf : Z) (mts : list (Z * section D)) (cur : option ctrl)
    : result (list str * option ctrl) :=
    match mts with
    | [] => Ok ([], cur)
    | (mt, s) :: r =>
        if should_skip_section mf mt exclude include then write_mts mf r cur
        else
          do (ls, c) <- write_section mf mt s;
          do (rest, cur') <- write_mts mf r (Some c);
          Ok (ls ++ rest, cur')
    end.

  (** outer loop, endf_parser.py 1011-1128 *)
  Fixpoint write_mfs (mfs : list (Z * list (Z * section D))) : result (list str) :=
    match mfs with
    | [] => Ok []
    | (mf, mts) :: r =>
        do (ls, cur) <- write_mts mf (zsort mts) None;
        do fend <- match cur with
                   | Some c => if mf =? 0 then Ok [] else write_fend wo zero_as_blank c
                   | None => Ok []
                   end;
        do rest <- write_mfs r;
        Ok (ls ++ fend ++ rest)
    end.

  (** endf_parser.py 990-1146 *)
  Definition write_tape (d : mfdic (section D)) : result (list str) :=
    do ls <- write_mfs (zsort d);
    do mend <- write_mend wo zero_as_blank;
    do tend <- write_tend wo zero_as_blank;
    Ok (ls ++ mend ++ tend).
End WriteDriver.

(** ** The driver of parse *)

Section ParseDriver.
  Context {P D : Type}.
  (** the recipe interpreter in read mode (endf_parser.py 959-969) for MF/MT on the lines
      of a section. [P] is what the parser object carries from one section to the next.
      Compiled parsing functions (943-956) are not modelled. *)
  Variable parse_recipe : P -> Z -> Z -> list str -> result D * P.
  (** whether there is a recipe, endf_parser.py 937 *)
  Variable has_recipe : Z -> Z -> bool.
  Variable ro : ropts.
  Variable wo : wopts.
  Variable nofail : bool.
  Variable exclude include : selection.

  (** endf_parser.py 933-981. Line 963 extends the list stored in the dictionary, so a
      failed section keeps the additional SEND record. *)
  Definition parse_section (p : P) (mf mt : Z) (lines : list str) : result (section D) * P :=
    match (do l0 <- get_line lines 0; read_ctrl ro l0) with
    | Err e => (Err e, p)
    | Ok curmat =>
        if has_recipe mf mt && negb (should_skip_section mf mt exclude include) then
          match write_send wo false curmat with
          | Err e => (Err e, p)
          | Ok snd =>
              let curlines := lines ++ snd in
              match parse_recipe p mf mt curlines with
              | (Ok d, p') => (Ok (Parsed d), p')
              | (Err e, p') => (if is_parser_exception e && nofail then Ok (Raw curlines) else Err e, p')
              end
          end
        else (Ok (Raw lines), p)
    end.

  Fixpoint parse_mts (p : P) (mf : Z) (mts : mtdic (list str)) : result (mtdic (section D)) * P :=
    match mts with
    | [] => (Ok [], p)
    | (mt, lines) :: r =>
        match parse_section p mf mt lines with
        | (Err e, p') => (Err e, p')
        | (Ok s, p') =>
            match parse_mts p' mf r with
            | (Err e, p'') => (Err e, p'')
            | (Ok rest, p'') => (Ok ((mt, s) :: rest), p'')
            end
        end
    end.

  Fixpoint parse_mfs (p : P) (mfs : mfdic (list str)) : result (mfdic (section D)) * P :=
    match mfs with
    | [] => (Ok [], p)
    | (mf, mts) :: r =>
        match parse_mts p mf mts with
        | (Err e, p') => (Err e, p')
        | (Ok sub, p') =>
            match parse_mfs p' r with
            | (Err e, p'') => (Err e, p'')
            | (Ok rest, p'') => (Ok ((mf, sub) :: rest), p'')
            end
        end
    end.

  (** endf_parser.py 909-988 *)
  Definition parse_tape (p : P) (lines : list str) : result (mfdic (section D)) * P :=
    match split_sections ro lines with
    | Err e => (Err e, p)
    | Ok d => parse_mfs p d
    end.
End ParseDriver.
