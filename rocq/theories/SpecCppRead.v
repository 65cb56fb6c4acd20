(** Specification vocabulary for the C++ reader of whole files. *)
From Coq Require Import Ascii String ZArith Bool List.
From Verif Require Import PyBase PyFloat ModelFortran ModelRecords ModelTape SpecFields SpecTape ModelCpp SpecCpp.
Import ListNotations.
Open Scope Z_scope.

(** a line with its line break, as Python reads it from a file *)
Definition with_break (l : str) : str := l ++ [ascii_of_nat 10].

(** A line that reaches to the end of the control columns; these consist of digits, signs
    and spaces, and MF and MT are not left blank. The line does not end with a carriage return. *)
Definition plain_line (l : str) : Prop :=
  (75 <= length l)%nat /\ number_field (slice 66 75 l) /\
  ~ blank (slice 70 72 l) /\ ~ blank (slice 72 75 l) /\ last l " "%char <> ascii_of_nat 13.

(** an end record in the columns of which C++ reads what Python reads: digits, signs and spaces,
    and no number so small that it is zero only for Python *)
Definition plain_end (accept : bool) (l : str) : Prop :=
  number_field (firstn 66 l) /\ field_in_range accept (slice 0 11 l) /\ field_in_range accept (slice 11 22 l).

(** the sections of a material with their MF *)
Definition sections (m : tmaterial) : list (Z * tsection) :=
  concat (map (fun f => map (fun s => (f_mf f, s)) (f_secs f)) (m_files m)).

(** the tape with its lines as they are in the file *)
Definition break_section (s : tsection) : tsection :=
  {| s_mt := s_mt s; s_body := map with_break (s_body s); s_send := with_break (s_send s) |}.
Definition break_file (f : tfile) : tfile :=
  {| f_mf := f_mf f; f_secs := map break_section (f_secs f); f_fend := with_break (f_fend f) |}.
Definition break_material (m : tmaterial) : tmaterial :=
  {| m_mat := m_mat m; m_files := map break_file (m_files m); m_mend := with_break (m_mend m) |}.
Definition break_tape (t : tape) : tape :=
  {| t_head := with_break (t_head t); t_mats := map break_material (t_mats t);
     t_tend := with_break (t_tend t); t_rest := map with_break (t_rest t) |}.

(** The two programs read the lines [body] of a section, with the end record [ends] behind them
    (none for the head of the tape), to the same data: Python with a SEND record that it adds,
    C++ from the lines of the file, whatever follows. *)
Definition recipes_agree {P D} (parse_recipe : P -> Z -> Z -> list str -> result D * P)
    (run_cpp : Z -> Z -> list str -> cpp (D * list str)) (ro : ropts) (wo : wopts)
    (mf mt : Z) (body ends : list str) : Prop :=
  exists d, (forall p send mat, end_line ro wo $"99999" send mat mf ->
               exists p', parse_recipe p mf mt (map with_break body ++ [send]) = (Ok d, p')) /\
            (forall rest, run_cpp mf mt (body ++ ends ++ rest) = Val (d, rest)).

(** [t] is the line [l] as the C++ reader copies it: a carriage return at the end is left out,
    a line break is added *)
Definition copied (l t : str) : Prop :=
  exists line, (l = line \/ l = line ++ [ascii_of_nat 13]) /\ t = line ++ [ascii_of_nat 10].
(** the columns of MF and MT of the line (without a carriage return) hold [mf] and [mt] *)
Definition in_columns (mf mt : Z) (l : str) : Prop :=
  exists line, (l = line \/ l = line ++ [ascii_of_nat 13]) /\
    stoi (slice 70 72 line) = Val mf /\ stoi (slice 72 75 line) = Val mt.

(** What the two programs have under an MF/MT: data related by [R], or the same lines. *)
Inductive same_entry {D E} (R : D -> E -> Prop) : section D -> section E -> Prop :=
| same_parsed d e : R d e -> same_entry R (Parsed d) (Parsed e)
| same_raw l : same_entry R (Raw l) (Raw l).
(** The two dictionaries have the same MF/MT, and related data under them. *)
Definition same_dictionary {D E} (R : D -> E -> Prop) (d : mfdic (section D)) (e : mfdic (section E)) : Prop :=
  (forall mf mt x, holds d mf mt x -> exists y, holds e mf mt y /\ same_entry R x y) /\
  (forall mf mt y, holds e mf mt y -> exists x, holds d mf mt x /\ same_entry R x y).
(** If both programs accept the section, their data are related and C++ stops behind the section. *)
Definition recipes_related {P D E} (R : D -> E -> Prop) (parse_recipe : P -> Z -> Z -> list str -> result D * P)
    (run_cpp : Z -> Z -> list str -> cpp (E * list str)) (ro : ropts) (wo : wopts)
    (mf mt : Z) (body ends : list str) : Prop :=
  forall p p' d send mat rest e left, end_line ro wo $"99999" send mat mf ->
    parse_recipe p mf mt (map with_break body ++ [send]) = (Ok d, p') ->
    run_cpp mf mt (body ++ ends ++ rest) = Val (e, left) -> R d e /\ left = rest.
