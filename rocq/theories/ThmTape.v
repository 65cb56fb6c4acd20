(** C01-C07, C34, C35: splitting, parsing and writing tapes. *)
From Coq Require Import Ascii String ZArith Bool Lia List Sorted.
From Verif Require Import PyBase PyFloat ModelFortran ModelRecords ModelTape SpecFields SpecLibm SpecTape SpecTapeEx
  ProofTape ProofTapeWrite ProofTapeParse ProofTapeEx.
Import ListNotations.
Open Scope Z_scope.

(** ** C01 *)
Theorem C01_verbatim_roundtrip : forall (P D : Type)
    (write_recipe : Z -> Z -> D -> result (list str * ctrl))
    (parse_recipe : P -> Z -> Z -> list str -> result D * P) has_recipe
    ro wo zero_as_blank nofail mat d,
  field_width wo -> r_width ro = w_width wo -> strict ro -> verbatim (w_width wo) mat d ->
  exists lines d', write_tape write_recipe ro wo zero_as_blank None None (raw_dict d) = Ok lines /\
    (forall p, parse_tape parse_recipe has_recipe ro wo nofail None (Some []) p lines = (Ok (raw_dict d'), p)) /\
    is_dict2 d' /\
    (forall mf mt ls, holds d mf mt ls ->
       exists ls', holds d' mf mt ls' /\ Forall2 (same_columns (w_width wo)) ls ls') /\
    (forall mf mt ls', holds d' mf mt ls' ->
       exists ls, holds d mf mt ls /\ Forall2 (same_columns (w_width wo)) ls ls').
Proof. exact @verbatim_roundtrip. Qed.
Print Assumptions C01_verbatim_roundtrip.

Example C01_example : field_width default_wo /\ r_width default_ro = w_width default_wo /\ strict default_ro /\
  verbatim 11 125 ex_dict.
Proof. exact verbatim_example. Qed.

(** A dictionary with a tape head only cannot be read back, and of the empty dictionary
    the MEND record is read as the tape head. *)
Theorem C01_no_section_refuted :
  (exists lines, write_tape ex_recipe default_ro default_wo false None None (raw_dict [(0, [(0, [ex_head])])]) = Ok lines /\
     split_sections default_ro lines = Err UnexpectedControlRecordError) /\
  (exists l1 l2, write_tape ex_recipe default_ro default_wo false None None (raw_dict []) = Ok [l1; l2] /\
     split_sections default_ro [l1; l2] = Ok [(0, [(0, [l1])])]).
Proof. exact no_section_refuted. Qed.
Print Assumptions C01_no_section_refuted.

(** ** C02, C03 *)
Theorem C02_contents : forall ro lines d, strict ro -> split_sections ro lines = Ok d ->
  exists t, tape_ok ro t /\ lines = tape_lines t /\ is_dict2 d /\
    forall mf mt ls, holds d mf mt ls <-> (ls = tape_section t mf mt /\ ls <> []).
Proof. exact split_contents. Qed.
Print Assumptions C02_contents.

(** Sections with the same MF and MT of different materials are merged. *)
Theorem C02_one_material_refuted : exists lines d l l' mat mat',
  split_sections default_ro lines = Ok d /\ holds d 3 1 [l; l'] /\
  carries 11 l mat 3 1 /\ carries 11 l' mat' 3 1 /\ mat <> mat'.
Proof. exact one_material_refuted. Qed.
Print Assumptions C02_one_material_refuted.

Theorem C03_nesting : forall ro lines, strict ro ->
  (exists d, split_sections ro lines = Ok d) <-> (exists t, tape_ok ro t /\ lines = tape_lines t).
Proof. exact split_accepts_iff. Qed.
Print Assumptions C03_nesting.

Example C03_example : strict default_ro /\ length ex_tape = 12%nat /\
  exists d, split_sections default_ro ex_tape = Ok d /\ holds d 3 1 (firstn 2 (skipn 1 ex_tape)).
Proof. exact accepted_example. Qed.

(** ** C04 *)
Theorem C04_skeleton : forall (D : Type) (write_recipe : Z -> Z -> D -> result (list str * ctrl))
    ro wo zero_as_blank exc inc d lines,
  field_width wo -> r_width ro = w_width wo ->
  (forall mf mt x ls c, holds d mf mt (Parsed x) -> write_recipe mf mt x = Ok (ls, c) -> ctrl_fits c) ->
  is_dict2 d -> (forall mf sub, In (mf, sub) d -> 0 <= mf) ->
  write_tape write_recipe ro wo zero_as_blank exc inc d = Ok lines ->
  exists t, lines = written_lines t /\ skeleton write_recipe ro wo exc inc d t.
Proof. exact @write_skeleton_thm. Qed.
Print Assumptions C04_skeleton.

Example C04_example :
  write_tape ex_recipe default_ro default_wo false None None (raw_dict ex_dict) = Ok ex_tape /\
  map (fun l => skipn 66 l) ex_tape =
  [ $"   1 0  0    0"; $" 125 3  1    1"; $" 125 3  1    2"; $" 125 3  099999"; $" 125 3  2    1"; $" 125 3  099999";
    $" 125 0  0    0"; $" 12533  1    1"; $" 12533  099999"; $" 125 0  0    0"; $"   0 0  0    0"; $"  -1 0  0    0" ].
Proof. exact written_example. Qed.

(** ** C05 *)
(** Lines of verbatim sections must reach the end of the control columns; what the recipe
    returns for a section (its SEND record last) is the subject of C16 to C21. *)
Theorem C05_width : forall (D : Type) (write_recipe : Z -> Z -> D -> result (list str * ctrl))
    ro wo zero_as_blank exc inc d lines,
  field_width wo -> r_width ro = w_width wo ->
  (forall mf mt x ls c, holds d mf mt (Parsed x) -> write_recipe mf mt x = Ok (ls, c) -> ctrl_fits c) ->
  is_dict2 d -> (forall mf sub, In (mf, sub) d -> 0 <= mf) ->
  (forall mf mt ls, holds d mf mt (Raw ls) -> long_lines wo ls) ->
  (forall mt x ls c, holds d 0 mt (Parsed x) -> write_recipe 0 mt x = Ok (ls, c) -> long_lines wo ls) ->
  (forall mf mt x ls l c, mf <> 0 -> holds d mf mt (Parsed x) -> write_recipe mf mt x = Ok (ls ++ [l], c) ->
     long_lines wo ls /\ length l = line_width wo) ->
  write_tape write_recipe ro wo zero_as_blank exc inc d = Ok lines ->
  Forall (fun l => length l = line_width wo) lines.
Proof. exact @write_width. Qed.
Print Assumptions C05_width.

Example C05_example : line_width default_wo = 80%nat /\ ex_tape <> [] /\
  (forall mf mt ls, holds (raw_dict (D := unit) ex_dict) mf mt (Raw ls) -> long_lines default_wo ls).
Proof. exact width_example. Qed.

(** A verbatim line that ends before the control columns is neither padded nor rejected. *)
Theorem C05_short_line_refuted : exists lines l,
  write_tape ex_recipe default_ro default_wo false None None (raw_dict [(0, [(0, [ex_head])]); (3, [(1, [ex_l1; $"short"])])]) = Ok lines /\
  In l lines /\ length l = 10%nat.
Proof. exact short_line_refuted. Qed.
Print Assumptions C05_short_line_refuted.

(** ** C06 *)
(** The numbers of a written section: in [numbered], line [i] (counted from 0) has the number
    [start + i mod 99999] behind its control columns, and [start] is 1, but 0 for lines
    with MF=0; [end_line] has the numbers of the end records. *)
Theorem C06_line_numbers : forall (D : Type) (write_recipe : Z -> Z -> D -> result (list str * ctrl))
    ro wo zero_as_blank exc inc d lines,
  field_width wo -> r_width ro = w_width wo ->
  (forall mf mt x ls c, holds d mf mt (Parsed x) -> write_recipe mf mt x = Ok (ls, c) -> ctrl_fits c) ->
  is_dict2 d -> (forall mf sub, In (mf, sub) d -> 0 <= mf) ->
  write_tape write_recipe ro wo zero_as_blank exc inc d = Ok lines ->
  exists t, lines = written_lines t /\
    (forall mt out, In (mt, out) (wr_head t) -> exists ls start, first_number (w_width wo) ls start /\ numbered wo start ls out) /\
    (forall f s, In f (wr_files t) -> In s (f_secs f) ->
       exists ls start, first_number (w_width wo) ls start /\ numbered wo start ls (s_body s)) /\
    (forall f s ls, In f (wr_files t) -> In s (f_secs f) -> holds d (f_mf f) (s_mt s) (Raw ls) ->
       exists mat mf, end_line ro wo $"99999" (s_send s) mat mf) /\
    (forall f, In f (wr_files t) -> exists mat, end_line ro wo $"    0" (f_fend f) mat 0) /\
    end_line ro wo $"    0" (wr_mend t) 0 0 /\ end_line ro wo $"    0" (wr_tend t) (-1) 0.
Proof. exact @write_numbers. Qed.
Print Assumptions C06_line_numbers.

(** Line 99999 has the number 99999, the next one the number 1. *)
Theorem C06_wrap : forall wo ls out l l', w_linenum wo = true -> numbered wo 1 ls out ->
  nth_error ls (Z.to_nat 99998) = Some l -> nth_error ls (Z.to_nat 99999) = Some l' ->
  nth_error out (Z.to_nat 99998) = Some (firstn (6 * w_width wo + 9) l ++ $"99999") /\
  nth_error out (Z.to_nat 99999) = Some (firstn (6 * w_width wo + 9) l' ++ $"    1").
Proof. exact numbers_wrap. Qed.
Print Assumptions C06_wrap.

(** ** C07 *)
(** Every section of the tape is in the result, parsed iff it is selected and has a recipe. *)
Theorem C07_parse_selection : forall (P D : Type) (parse_recipe : P -> Z -> Z -> list str -> result D * P)
    has_recipe ro wo nofail exc inc p lines d p',
  field_width wo -> r_width ro = w_width wo ->
  parse_tape parse_recipe has_recipe ro wo nofail exc inc p lines = (Ok d, p') ->
  exists d0, split_sections ro lines = Ok d0 /\ (is_dict2 d0 -> is_dict2 d) /\
    (forall mf mt ls, holds d0 mf mt ls ->
       exists x, holds d mf mt x /\ section_parsed parse_recipe has_recipe ro wo nofail exc inc mf mt ls x) /\
    (forall mf mt x, holds d mf mt x ->
       exists ls, holds d0 mf mt ls /\ section_parsed parse_recipe has_recipe ro wo nofail exc inc mf mt ls x).
Proof. exact @parse_selection_thm. Qed.
Print Assumptions C07_parse_selection.

Theorem C07_write_selection : forall (D : Type) (write_recipe : Z -> Z -> D -> result (list str * ctrl))
    ro wo zero_as_blank exc inc d d',
  only_selected exc inc d d' ->
  write_tape write_recipe ro wo zero_as_blank exc inc d = write_tape write_recipe ro wo zero_as_blank None None d'.
Proof. exact @write_selected. Qed.
Print Assumptions C07_write_selection.

Example C07_example :
  parse_tape ex_parse (fun _ _ => true) default_ro default_wo true (Some [SMf 0; SMfMt 3 2; SMf 33]) None tt ex_tape =
    (Ok [(0, [(0, Raw [nth 0 ex_tape []])]); (3, [(1, Raw (firstn 3 (skipn 1 ex_tape))); (2, Raw [nth 4 ex_tape []])]);
         (33, [(1, Raw [nth 7 ex_tape []])])], tt) /\
  only_selected None (Some [SMfMt 3 1; SMf 33]) [(3, [(2, Raw [ex_l3]); (1, Parsed tt)]); (33, [(1, Parsed tt)]); (0, [(0, Raw [ex_head])])]
    [(3, [(1, Parsed tt)]); (33, [(1, Parsed tt)]); (0, [])].
Proof. exact selection_example. Qed.

(** ** C34 *)
(** With nofail no failure of a recipe is passed on, provided it is an error of the parser
    (other exceptions escape). *)
Theorem C34_failures_caught_partial : forall (P D : Type) (parse_recipe : P -> Z -> Z -> list str -> result D * P)
    has_recipe ro wo exc inc lines d0,
  field_width wo -> strict ro -> split_sections ro lines = Ok d0 ->
  (forall p mf mt ls send e p', holds d0 mf mt ls -> has_recipe mf mt = true -> selected exc inc mf mt ->
     parse_recipe p mf mt (ls ++ send) = (Err e, p') -> is_parser_exception e = true) ->
  forall p, exists d p', parse_tape parse_recipe has_recipe ro wo true exc inc p lines = (Ok d, p').
Proof. exact @parse_nofail. Qed.
Print Assumptions C34_failures_caught_partial.

(** The lines of a failed section have an additional SEND record, so that the tape that is
    written from the result has two of them and is rejected. *)
Theorem C34_written_again_refuted : exists d lines,
  parse_tape ex_parse (fun _ _ => true) default_ro default_wo true None None tt ex_tape = (Ok d, tt) /\
  write_tape ex_recipe default_ro default_wo false None None d = Ok lines /\
  split_sections default_ro lines = Err UnexpectedControlRecordError.
Proof. exact written_again_refuted. Qed.
Print Assumptions C34_written_again_refuted.

(** ** C35 *)
Theorem C35_blank_lines : forall ro l0 rest rest' d, split_sections ro (l0 :: rest) = Ok d ->
  ~ blank l0 -> blank_inserted rest rest' -> split_sections (ignore_blank ro) (l0 :: rest') = Ok d.
Proof. exact split_ignore_blank. Qed.
Print Assumptions C35_blank_lines.

Theorem C35_section_ends : forall ro l0 rest rest' d, strict ro -> split_sections ro (l0 :: rest) = Ok d ->
  Forall (fun l => ~ blank l) (l0 :: rest) -> ends_dropped ro rest rest' ->
  split_sections (ignore_send ro) (l0 :: rest') = Ok d.
Proof. exact split_ignore_send. Qed.
Print Assumptions C35_section_ends.

Theorem C35_missing_head : forall ro l0 rest d, strict ro -> split_sections ro (l0 :: rest) = Ok d ->
  (exists l r mat mf mt, rest = l :: r /\ carries (r_width ro) l mat mf mt /\ mf <> 0) ->
  exists d', split_sections (ignore_tpid ro) rest = Ok d' /\ is_dict2 d' /\
    forall mf mt ls, holds d' mf mt ls <-> holds d mf mt ls /\ mf <> 0.
Proof. exact split_ignore_tpid. Qed.
Print Assumptions C35_missing_head.

Example C35_example : exists d l0 rest rest' rest'', ex_tape = l0 :: rest /\ split_sections default_ro (l0 :: rest) = Ok d /\
  ~ blank l0 /\ blank_inserted rest rest' /\ length rest' = 13%nat /\
  Forall (fun l => ~ blank l) (l0 :: rest) /\ ends_dropped default_ro rest rest'' /\ length rest'' = 4%nat.
Proof. exact lenient_example. Qed.

(** Blank lines before the tape head are not ignored but taken as the tape head. *)
Theorem C35_leading_blank_refuted : exists d d', split_sections default_ro ex_tape = Ok d /\
  split_sections (ignore_blank default_ro) ($"  " :: ex_tape) = Ok d' /\
  holds d' 0 0 [ $"  " ] /\ ~ holds d 0 0 [ $"  " ].
Proof. exact leading_blank_refuted. Qed.
Print Assumptions C35_leading_blank_refuted.

(** With ignore_send_records, blank lines at the end are rejected that are accepted without. *)
Theorem C35_trailing_blank_refuted : exists d, split_sections default_ro (ex_tape ++ [ $"  " ]) = Ok d /\
  split_sections (ignore_send default_ro) (ex_tape ++ [ $"  " ]) = Err BlankLineError.
Proof. exact trailing_blank_refuted. Qed.
Print Assumptions C35_trailing_blank_refuted.

(** Without any material a tape without its head is not recognised: the end record is taken as the head. *)
Theorem C35_no_material_refuted : exists tend d, split_sections default_ro [ex_head; tend] = Ok d /\
  split_sections (ignore_tpid default_ro) [tend] <> Ok [].
Proof. exact no_material_refuted. Qed.
Print Assumptions C35_no_material_refuted.
