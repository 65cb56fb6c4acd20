(** C58: tables, kept texts of numbers and checks of the C++ templates. *)
From Coq Require Import Ascii String ZArith Bool Lia List.
From Coq Require Import Floats.SpecFloat.
From Verif Require Import PyBase PyFloat ModelFortran ModelRecords ModelTape ModelNum ModelRecipe ModelInterp SpecFields SpecFloat
  SpecLibm SpecTape SpecInterpEx ModelCpp ModelCppTab SpecCpp SpecCppTab ProofCppTab ProofCppCheck.
Import ListNotations.
Open Scope Z_scope.

(** ** Reading tables *)

(** If Python reads the body of a TAB2 record (at least one interpolation range, integers in every
    field), C++ reads the same table and goes on with the same line; with validate_control_records
    as well, if the lines have the control numbers of the section. *)
Theorem C58_tab2_read : forall ro (lines : list str) nr ofs ivals ofs' validate c, r_width ro = 11%nat -> 0 < nr ->
  (ofs <= length lines)%nat -> (forall l : str, In l lines -> (66 <= length l)%nat) ->
  (forall k, (k < Z.to_nat (2 * nr))%nat -> number_field (field_no lines ofs k) /\
     exists z, int32 z /\ read_fort_int (field_no lines ofs k) = Ok z) ->
  (validate = true -> forall i, (ofs <= i < ofs')%nat -> cpp_control c (nth i lines [])) ->
  read_endf_numbers ro true lines (2 * nr) ofs = Ok (ivals, ofs') ->
  exists nbt int, evens ivals = map NInt nbt /\ odds ivals = map NInt int /\
  cpp_read_tab2_body validate c (Z.to_nat nr) (skipn ofs lines) = Val ((nbt, int), skipn ofs' lines).
Proof. exact tab2_body_read. Qed.
Print Assumptions C58_tab2_read.

(** The same for TAB1: X and Y are the same doubles, with the same text if texts are kept. *)
Theorem C58_tab1_read : forall ro (lines : list str) nr np ofs nbt int xs ys ofs' validate c, r_width ro = 11%nat ->
  0 < nr -> 0 < np -> (ofs <= length lines)%nat -> (forall l : str, In l lines -> (66 <= length l)%nat) ->
  (forall k, (k < Z.to_nat (2 * nr))%nat -> number_field (field_no lines ofs k) /\
     exists z, int32 z /\ read_fort_int (field_no lines ofs k) = Ok z) ->
  (forall k, (k < Z.to_nat (2 * np))%nat ->
     let s := field_no lines (ofs + (Z.to_nat (2 * nr) + 5) / 6) k in number_field s /\ field_in_range (r_spaces ro) s) ->
  (validate = true -> forall i, (ofs <= i < ofs')%nat -> cpp_control c (nth i lines [])) ->
  read_tab1_body_lines ro lines ofs nr np = Ok ((nbt, int, xs, ys), ofs') ->
  exists nbt' int' xs' ys', nbt = map NInt nbt' /\ int = map NInt int' /\
    Forall2 same_number xs xs' /\ Forall2 same_number ys ys' /\
    cpp_read_tab1_body (r_spaces ro) (r_preserve ro) validate c (Z.to_nat nr) (Z.to_nat np) (skipn ofs lines) =
    Val ((nbt', int'), (xs', ys'), skipn ofs' lines).
Proof. exact tab1_body_read. Qed.
Print Assumptions C58_tab1_read.

Definition ex_c : ctrl := {| MAT := 2625; MF := 3; MT := 102 |}.
(** four ranges on two lines, four points on two lines *)
Definition ex_tab : list str :=
  [ $"          2          2         10          5         20          22625 3102    4";
    $"         24          4                                            2625 3102    5";
    $" 1.000000-5 2.000000+0 1.000000+0            2.000000+0-3.500000+02625 3102    6";
    $" 2.000000+7 1.000000-3                                            2625 3102    7";
    $" 0.000000+0 0.000000+0          0          0          0          02625 3  099999" ].
Definition keep_ro : ropts :=
  {| r_spaces := true; r_blank := false; r_send := false; r_tpid := false; r_width := 11; r_preserve := true |}.
Example C58_tab1_example :
  (forall l : str, In l ex_tab -> (66 <= length l)%nat) /\
  (forall i, (0 <= i < 4)%nat -> cpp_control ex_c (nth i ex_tab [])) /\
  (exists xs ys, read_tab1_body_lines keep_ro ex_tab 0 4 4 =
     Ok ((map NInt [2; 10; 20; 24], map NInt [2; 5; 2; 4], xs, ys), 4%nat) /\ length xs = 4%nat) /\
  (exists xs ys, cpp_read_tab1_body true true true ex_c 4 4 ex_tab =
     Val (([2; 10; 20; 24], [2; 5; 2; 4]), (xs, ys), skipn 4 ex_tab) /\
     map ef_orig xs = [$" 1.000000-5"; $" 1.000000+0"; $" 2.000000+0"; $" 2.000000+7"] /\
     map ef_orig ys = [$" 2.000000+0"; $"           "; $"-3.500000+0"; $" 1.000000-3"]).
Proof.
  split; [|split; [|split]].
  - intros l H. cbn [In ex_tab] in H. repeat (destruct H as [<-|H]; [cbn; lia|]). destruct H.
  - intros i H. do 4 (destruct i as [|i]; [repeat split; vm_compute; reflexivity|]). lia.
  - match eval vm_compute in (read_tab1_body_lines keep_ro ex_tab 0 4 4) with Ok ((_, _, ?x, ?y), _) => exists x, y end.
    split; vm_compute; reflexivity.
  - match eval vm_compute in (cpp_read_tab1_body true true true ex_c 4 4 ex_tab) with Val (_, (?x, ?y), _) => exists x, y end.
    split; [|split]; vm_compute; reflexivity.
Qed.
(** the fields of this table meet the other conditions *)
Example C58_tab1_fields_example :
  (forall k, (k < 8)%nat -> number_field (field_no ex_tab 0 k) /\
     exists z, int32 z /\ read_fort_int (field_no ex_tab 0 k) = Ok z) /\
  (forall k, (k < 8)%nat -> number_field (field_no ex_tab 2 k)).
Proof.
  split; intros k H.
  - do 8 (destruct k as [|k]; [split;
      [intros c J; vm_compute in J; repeat (destruct J as [<-|J]; [unfold number_char; cbn; tauto|]); destruct J
      |eexists; split; [|vm_compute; reflexivity]; split; vm_compute; congruence]|]). lia.
  - do 8 (destruct k as [|k];
      [intros c J; vm_compute in J; repeat (destruct J as [<-|J]; [unfold number_char; cbn; tauto|]); destruct J|]). lia.
Qed.

(** With validate_control_records a list of numbers is taken only from lines that have the control
    numbers of the section, and is the list that is read without this option. *)
Theorem C58_checked_lines : forall A (rd : str -> nat -> cpp A) c n lines vs rest,
  cpp_vec true c rd n lines = Val (vs, rest) ->
  cpp_vec false c rd n lines = Val (vs, rest) /\
  exists used, lines = used ++ rest /\ used <> [] /\ Forall (cpp_control c) used.
Proof. exact @checked_vec. Qed.
Print Assumptions C58_checked_lines.

(** A SEND record is accepted with this option if and only if it is accepted without and has the
    material and the file of the section. *)
Theorem C58_checked_send : forall accept c l r r', cpp_read_send_checked accept true c (l :: r) = Val r' <->
  r' = r /\ cpp_control {| MAT := MAT c; MF := MF c; MT := 0 |} l /\ cpp_read_send accept l = Val true.
Proof. exact send_checked. Qed.
Print Assumptions C58_checked_send.

Example C58_checked_send_example :
  cpp_read_send_checked true true ex_c (skipn 4 ex_tab) = Val [] /\
  cpp_read_send_checked true true {| MAT := 2626; MF := 3; MT := 102 |} (skipn 4 ex_tab) = Throw /\
  cpp_read_send_checked true false {| MAT := 2626; MF := 3; MT := 102 |} (skipn 4 ex_tab) = Val [].
Proof. repeat split; vm_compute; reflexivity. Qed.

(** Python never compares the control numbers of the second and later lines of a record. *)
Theorem C58_lines_refuted : exists (l1 l2 : str) vals, let lines := [l1; l2] in
  read_endf_numbers (ctrl_ropts 11) true lines 8 0 = Ok (vals, 2%nat) /\
  read_ctrl (ctrl_ropts 11) l1 = Ok ex_c /\ read_ctrl (ctrl_ropts 11) l2 = Ok {| MAT := 9228; MF := 1; MT := 451 |} /\
  cpp_vec true ex_c cpp_read_int_field 8 lines = Throw.
Proof.
  exists (nth 0 ex_tab []), $"         24          4                                            9228 1451    5".
  match goal with |- exists vals, let lines := ?l in _ =>
    match eval vm_compute in (read_endf_numbers (ctrl_ropts 11) true l 8 0) with Ok (?v, _) => exists v end end.
  repeat split; vm_compute; reflexivity.
Qed.
Print Assumptions C58_lines_refuted.

(** ** Writing tables *)

(** If Python writes the body of a TAB2 or TAB1 record and the texts of the real numbers agree, C++
    writes the same lines, with the same control columns and line numbers, and goes on counting
    from the same number. *)
Theorem C58_tab2_write : forall o wo c nbt int n ls, same_options o wo -> ctrl_fits c -> 0 <= n -> nbt <> [] ->
  length nbt = length int -> Forall int32 nbt -> Forall int32 int ->
  write_endf_ints wo (interleave nbt int) = Ok ls ->
  cpp_write_tab2_body o c nbt int n = Val (text_of (finished wo c n ls), n + Z.of_nat (length ls)).
Proof. exact tab2_body_write. Qed.
Print Assumptions C58_tab2_write.

Theorem C58_tab1_write : forall o preserve wo c nbt int xs ys xs' ys' n ls, same_options o wo -> ctrl_fits c -> 0 <= n ->
  nbt <> [] -> xs <> [] -> Forall int32 nbt -> Forall int32 int ->
  Forall2 (same_text o preserve wo) xs xs' -> Forall2 (same_text o preserve wo) ys ys' ->
  write_tab1_body_lines wo nbt int xs ys = Ok ls ->
  cpp_write_tab1_body o preserve c nbt int xs' ys' n = Val (text_of (finished wo c n ls), n + Z.of_nat (length ls)).
Proof. exact tab1_body_write. Qed.
Print Assumptions C58_tab1_write.

Definition ex_o : cwopts := {| cw_abuse := false; cw_keepE := false; cw_noexp := false; cw_skip := false; cw_linenum := true |}.
Definition ex_wo : wopts := default_wo.
Definition flt (n d : Z) : num := NFlt (round64 (n <? 0) (Z.abs n) d).
Definition eflt (n d : Z) : endf_float_cpp := {| ef_value := round64 (n <? 0) (Z.abs n) d; ef_orig := [] |}.
Example C58_tab1_write_example :
  let xs := [flt 1 100000; flt 1 1; flt 2 1; flt 20000000 1] in
  let xs' := [eflt 1 100000; eflt 1 1; eflt 2 1; eflt 20000000 1] in
  let ys := [flt 2 1; flt 0 1; flt (-7) 2; flt 1 1000] in
  let ys' := [eflt 2 1; eflt 0 1; eflt (-7) 2; eflt 1 1000] in
  same_options ex_o ex_wo /\ Forall2 (same_text ex_o true ex_wo) xs xs' /\ Forall2 (same_text ex_o true ex_wo) ys ys' /\
  cpp_write_tab1_body ex_o true ex_c [2; 10; 20; 24] [2; 5; 2; 4] xs' ys' 3 = Val (text_of
  [ $"          2          2         10          5         20          22625 3102    4";
    $"         24          4                                            2625 3102    5";
    $" 1.000000-5 2.000000+0 1.000000+0 0.000000+0 2.000000+0-3.500000+02625 3102    6";
    $" 2.000000+7 1.000000-3                                            2625 3102    7" ], 7).
Proof.
  intros xs xs' ys ys'. split; [repeat split|]. split; [|split; [|vm_compute; reflexivity]].
  - repeat (apply Forall2_cons || apply Forall2_nil).
    + exists $" 1.000000-5". repeat split; vm_compute; reflexivity.
    + exists $" 1.000000+0". repeat split; vm_compute; reflexivity.
    + exists $" 2.000000+0". repeat split; vm_compute; reflexivity.
    + exists $" 2.000000+7". repeat split; vm_compute; reflexivity.
  - repeat (apply Forall2_cons || apply Forall2_nil).
    + exists $" 2.000000+0". repeat split; vm_compute; reflexivity.
    + exists $" 0.000000+0". repeat split; vm_compute; reflexivity.
    + exists $"-3.500000+0". repeat split; vm_compute; reflexivity.
    + exists $" 1.000000-3". repeat split; vm_compute; reflexivity.
Qed.

(** A table without points: Python reports an error, C++ writes an empty line; read again, C++
    takes this line and Python does not. *)
Theorem C58_empty_table_refuted : forall o wo c n, ctrl_fits c ->
  write_tab1_body_lines wo [] [] [] [] = Err IndexError /\
  cpp_write_tab2_body o c [] [] n = Val (cpp_prepare_line (MAT c) (MF c) (MT c) n o).
Proof.
  intros o wo c n _. split; [reflexivity|]. unfold cpp_write_tab2_body, write_pairs. cbn [length Nat.eqb combine write_pairs_loop].
  now destruct (cpp_prepare_line (MAT c) (MF c) (MT c) n o).
Qed.
Print Assumptions C58_empty_table_refuted.

(** ** Kept texts *)

(** With preserve_value_strings for reading and writing, a field that has been read is written back
    as it was. *)
Theorem C58_text_kept : forall accept o (line : str) i v, (i < 6)%nat -> (66 <= length line)%nat ->
  cpp_read_endf_field accept true line i = Val v -> cpp_write_endf_field o true line i v = Val line.
Proof. exact written_as_read. Qed.
Print Assumptions C58_text_kept.

Example C58_text_kept_example : exists v, let l := nth 2 ex_tab [] in
  cpp_read_endf_field true true l 5 = Val v /\ ef_orig v = $"-3.500000+0" /\ cpp_write_endf_field ex_o true l 5 v = Val l.
Proof.
  match eval vm_compute in (cpp_read_endf_field true true (nth 2 ex_tab []) 5) with Val ?v => exists v end.
  repeat split; vm_compute; reflexivity.
Qed.

(** A blank field: Python does not keep its text and writes a zero. *)
Theorem C58_blank_text_refuted : exists line : str, (66 <= length line)%nat /\
  read_fort_float keep_ro (field 11 3 line) = Ok (NFlt (S754_zero false)) /\
  float2fortstr ex_wo (NFlt (S754_zero false)) = Ok $" 0.000000+0" /\
  exists v, cpp_read_endf_field true true line 3 = Val v /\ cpp_endf_text ex_o true v = Val (spaces 11).
Proof.
  exists (nth 2 ex_tab []). split; [cbn; lia|]. split; [vm_compute; reflexivity|]. split; [vm_compute; reflexivity|].
  match eval vm_compute in (cpp_read_endf_field true true (nth 2 ex_tab []) 3) with Val ?v => exists v end.
  split; vm_compute; reflexivity.
Qed.
Print Assumptions C58_blank_text_refuted.

(** ** Checks of fields *)

(** What the check of the C++ parser accepts the Python parser accepts. *)
Theorem C58_check_sound : forall o e expected actual, o_fuzzy o = false -> plain_number expected -> plain_number actual ->
  cpp_validate_field (checks_of o) e expected actual = Val tt -> check_value o e (VNum actual) (VNum expected) = Ok tt.
Proof. exact validate_sound. Qed.
Print Assumptions C58_check_sound.

(** For a field without variables both decide alike. *)
Theorem C58_check_literal : forall o e expected actual, o_fuzzy o = false -> o_all o = false -> contains_variable e = false ->
  plain_number expected -> plain_number actual -> (forall f s, expected <> NEndf f s) ->
  (cpp_validate_field (checks_of o) e expected actual = Val tt /\ check_value o e (VNum actual) (VNum expected) = Ok tt) \/
  (cpp_validate_field (checks_of o) e expected actual = Throw /\
   check_value o e (VNum actual) (VNum expected) = Err NumberMismatchError).
Proof. exact validate_literal. Qed.
Print Assumptions C58_check_literal.

Definition ex_opts (zero number varspec : bool) : popts :=
  {| o_zero := zero; o_number := number; o_varspec := varspec; o_fuzzy := false; o_all := false |}.
Example C58_check_example : let e := ENum true (NInt 3) in
  contains_variable e = false /\
  check_value (ex_opts false true false) e (VNum (NInt 4)) (VNum (NInt 3)) = Ok tt /\
  cpp_validate_field (checks_of (ex_opts false true false)) e (NInt 3) (NInt 4) = Val tt /\
  cpp_validate_field (checks_of (ex_opts true false true)) e (NInt 3) (NInt 4) = Throw.
Proof. repeat split; vm_compute; reflexivity. Qed.

(** For a field with variables Python accepts more: ignore_zero_mismatch lets it accept any number
    where a variable with the value zero is expected, the C++ parser does not. *)
Theorem C58_check_refuted : exists o e, contains_variable e = true /\
  check_value o e (VNum (NInt 4)) (VNum (NInt 0)) = Ok tt /\
  cpp_validate_field (checks_of o) e (NInt 0) (NInt 4) = Throw.
Proof. exists (ex_opts true false false), (EVar $"NA" []). repeat split; vm_compute; reflexivity. Qed.
Print Assumptions C58_check_refuted.
