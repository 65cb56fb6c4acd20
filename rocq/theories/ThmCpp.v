(** C50: the C++ templates against the Python code. *)
From Coq Require Import Ascii String ZArith QArith Bool Lia List.
From Coq Require Import Floats.SpecFloat.
From Verif Require Import PyBase PyFloat ModelFortran ModelRecords ModelTape SpecFields SpecFloat SpecLibm SpecTape
  ModelCpp SpecCpp ProofCpp ProofCppWrite.
Import ListNotations.
Open Scope Z_scope.

(** ** Selection *)

Theorem C50_selection : forall mf mt exclude include,
  should_parse_section mf mt exclude include = negb (should_skip_section mf mt exclude include).
Proof. exact selection_same. Qed.
Print Assumptions C50_selection.

Example C50_selection_example :
  should_parse_section 3 2 None (Some [SMf 1; SMfMt 3 2]) = true /\
  should_parse_section 3 1 None (Some [SMf 1; SMfMt 3 2]) = false /\
  should_parse_section 3 2 (Some [SMfMt 3 2]) (Some [SMf 3]) = false.
Proof. repeat split. Qed.

(** ** Integer fields *)

(** A field of digits, signs and spaces that Python reads as [v] is read as [v] by C++, if [v]
    is an [int]. *)
Theorem C50_integer_field : forall s v, number_field s -> int32 v ->
  read_fort_int s = Ok v -> endfstr2int s = Val v.
Proof. exact int_field_same. Qed.
Print Assumptions C50_integer_field.

Example C50_integer_example : number_field $"      -1234" /\ int32 (-1234) /\
  read_fort_int $"      -1234" = Ok (-1234).
Proof.
  split; [|split; [split; vm_compute; congruence|reflexivity]]. intros c H.
  repeat (destruct H as [<-|H]; [unfold number_char; cbn; tauto|]). destruct H.
Qed.

(** Not so for other fields: Python allows underscores, and its integers have no bound. *)
Theorem C50_integer_field_refuted :
  (read_fort_int $"        1_0" = Ok 10 /\ endfstr2int $"        1_0" = Val 1) /\
  (read_fort_int $" 9999999999" = Ok 9999999999 /\ endfstr2int $" 9999999999" = Undefined).
Proof. repeat split; vm_compute; reflexivity. Qed.
Print Assumptions C50_integer_field_refuted.

(** Fields that Python rejects are not rejected by C++. *)
Theorem C50_integer_rejection_refuted : exists s, number_field s /\
  read_fort_int s = Err InvalidIntegerError /\ endfstr2int s = Val 1.
Proof.
  exists $"       1.23". split; [|split; vm_compute; reflexivity]. intros c H.
  repeat (destruct H as [<-|H]; [unfold number_char; cbn; tauto|]). destruct H.
Qed.
Print Assumptions C50_integer_rejection_refuted.

(** ** Control columns *)

Theorem C50_control_numbers : forall ro line c, r_width ro = 11%nat -> (75 <= length line)%nat ->
  number_field (slice 66 75 line) -> read_ctrl ro line = Ok c ->
  cpp_read_mat_number line = Val (MAT c) /\ cpp_read_mf_number line = Val (MF c) /\
  cpp_read_mt_number line = Val (MT c).
Proof. exact control_read_same. Qed.
Print Assumptions C50_control_numbers.

Example C50_control_example : exists line,
  (75 <= length line)%nat /\ number_field (slice 66 75 line) /\
  read_ctrl (ctrl_ropts 11) line = Ok {| MAT := 2625; MF := 3; MT := 102 |}.
Proof.
  exists (spaces 66 ++ $"2625 3102    1"). split; [cbn; lia|]. split; [|vm_compute; reflexivity]. intros c H.
  vm_compute in H. repeat (destruct H as [<-|H]; [unfold number_char; cbn; tauto|]). destruct H.
Qed.

(** ** Real number fields *)

(** Every field of digits, signs, points, "e", "E" and spaces that Python accepts: C++ reads
    the same double, or raises an exception if the number is out of the range of doubles. *)
Theorem C50_float_field : forall ro s v, r_width ro = 11%nat -> (length s <= 11)%nat -> number_field s ->
  read_fort_float ro s = Ok v ->
  exists f, v = (if r_preserve ro && negb (is_blank s) then NEndf f s else NFlt f) /\
   ((blank s /\ f = S754_zero false /\ endfstr2float (r_spaces ro) s = Val f) \/
    exists t neg m e, fortran_text t neg m e /\ field_text (r_spaces ro) t s /\
      f = round64 neg (dec_num m e) (dec_den e) /\
      (in_double_range m e -> endfstr2float (r_spaces ro) s = Val f) /\
      (~ in_double_range m e -> endfstr2float (r_spaces ro) s = Throw)).
Proof. exact float_field_same. Qed.
Print Assumptions C50_float_field.

Example C50_float_example :
  read_fort_float (ctrl_ropts 11) $" 1.234567-5" = Ok (NFlt (round64 false 1234567 (10 ^ 11))) /\
  endfstr2float true $" 1.234567-5" = Val (round64 false 1234567 (10 ^ 11)) /\
  endfstr2float true $" 1.2 34 E 5" = Val (round64 false 123400 1) /\
  endfstr2float false $" 1.2 34 E 5" = Throw.
Proof. repeat split; vm_compute; reflexivity. Qed.

(** Numbers that Python reads as a subnormal number or as infinity make C++ raise an exception. *)
Theorem C50_float_range_refuted :
  (read_fort_float (ctrl_ropts 11) $" 1.0000-310" = Ok (NFlt (round64 false 1 (10 ^ 310))) /\
   endfstr2float true $" 1.0000-310" = Throw) /\
  (read_fort_float (ctrl_ropts 11) $" 1.0000+310" = Ok (NFlt (S754_infinity false)) /\
   endfstr2float true $" 1.0000+310" = Throw).
Proof. repeat split; vm_compute; reflexivity. Qed.
Print Assumptions C50_float_range_refuted.

(** Fields that Python rejects are not rejected by C++. *)
Theorem C50_float_rejection_refuted : exists s f, number_field s /\
  read_fort_float (ctrl_ropts 11) s = Err InvalidFloatError /\ endfstr2float true s = Val f.
Proof.
  exists $"1.234.56e+1", (round64 false 1234 1000). split; [|split; vm_compute; reflexivity]. intros c H.
  repeat (destruct H as [<-|H]; [unfold number_char; cbn; tauto|]). destruct H.
Qed.
Print Assumptions C50_float_rejection_refuted.

(** ** Written lines *)

(** The line that the C++ writer prepares, with its six fields replaced, has the fields, the
    control columns and the line number (of a counter that starts again after 99999). *)
Theorem C50_data_line : forall o c n fs, ctrl_fits c -> length fs = 6%nat ->
  Forall (fun f => length f = 11%nat) fs ->
  put_fields (fst (cpp_prepare_line (MAT c) (MF c) (MT c) n o)) fs =
  concat fs ++ write_ctrl c ++ (if cw_linenum o then rjust 5 (str_of_Z (Z.rem n 99999 + 1)) else [])
  ++ [ascii_of_nat 10].
Proof. exact data_line_same. Qed.
Print Assumptions C50_data_line.

Example C50_data_line_example :
  let o := {| cw_abuse := false; cw_keepE := false; cw_noexp := false; cw_skip := false; cw_linenum := true |} in
  put_fields (fst (cpp_prepare_line 2625 3 102 41 o))
    [$" 2.605600+4"; $" 5.545440+1"; $"          0"; $"          0"; $"          0"; $"         12"] =
  $" 2.605600+4 5.545440+1          0          0          0         122625 3102   42" ++ [ascii_of_nat 10].
Proof. vm_compute. reflexivity. Qed.

(** Without keep_E and prefer_noexp the end records of the two writers are the same. *)
Theorem C50_send : forall o wo, same_options o wo -> cw_keepE o = false -> cw_noexp o = false ->
  forall c, ctrl_fits c -> MF c <> 0 -> exists ls, write_send wo false c = Ok ls /\
  cpp_prepare_send (MAT c) (MF c) o = Val (text_of ls).
Proof. exact send_same. Qed.
Print Assumptions C50_send.

Theorem C50_fend : forall o wo, same_options o wo -> cw_keepE o = false -> cw_noexp o = false ->
  forall c, in_field 4 (MAT c) -> exists ls, write_fend wo false c = Ok ls /\
  cpp_prepare_send (MAT c) 0 o = Val (text_of ls).
Proof. exact fend_same_field. Qed.
Print Assumptions C50_fend.

Theorem C50_mend_tend : forall o wo, same_options o wo -> cw_keepE o = false -> cw_noexp o = false ->
  (exists ls, write_mend wo false = Ok ls /\ cpp_prepare_send 0 0 o = Val (text_of ls)) /\
  (exists ls, write_tend wo false = Ok ls /\ cpp_prepare_send (-1) 0 o = Val (text_of ls)).
Proof. intros o wo S K N. split; [exact (mend_same o wo S K N)|exact (tend_same o wo S K N)]. Qed.
Print Assumptions C50_mend_tend.

Definition ex_o (keepE noexp : bool) : cwopts :=
  {| cw_abuse := false; cw_keepE := keepE; cw_noexp := noexp; cw_skip := false; cw_linenum := true |}.
Definition ex_wo (keepE noexp : bool) : wopts :=
  {| w_abuse := false; w_skip := false; w_noexp := noexp; w_keepE := keepE; w_linenum := true;
     w_width := 11; w_strict := true; w_libm := w_libm default_wo |}.
Definition ex_c : ctrl := {| MAT := 2625; MF := 3; MT := 102 |}.

Example C50_end_records_example : same_options (ex_o false false) (ex_wo false false) /\ ctrl_fits ex_c /\
  cpp_prepare_send (MAT ex_c) (MF ex_c) (ex_o false false) =
    Val ($" 0.000000+0 0.000000+0          0          0          0          02625 3  099999" ++ [ascii_of_nat 10]).
Proof. split; [repeat split|]. split; [unfold ctrl_fits; cbn; lia|]. vm_compute. reflexivity. Qed.

(** With keep_E and with prefer_noexp they differ. *)
Theorem C50_send_keep_E_refuted : exists a b,
  write_send (ex_wo true false) false ex_c = Ok [$" 0.00000E+0" ++ a] /\
  cpp_prepare_send (MAT ex_c) (MF ex_c) (ex_o true false) = Val ($" 0.00000e+0" ++ b).
Proof.
  match eval vm_compute in (write_send (ex_wo true false) false ex_c) with
  | Ok [?l] => let b := eval vm_compute in (skipn 11 l) in exists b
  end.
  match eval vm_compute in (cpp_prepare_send (MAT ex_c) (MF ex_c) (ex_o true false)) with
  | Val ?l => let b := eval vm_compute in (skipn 11 l) in exists b
  end.
  split; vm_compute; reflexivity.
Qed.
Print Assumptions C50_send_keep_E_refuted.

Theorem C50_send_noexp_refuted : exists a b c d,
  write_send (ex_wo false true) false ex_c = Ok [a ++ b] /\
  cpp_prepare_send (MAT ex_c) (MF ex_c) (ex_o false true) = Val (c ++ d) /\
  length a = 11%nat /\ length c = 11%nat /\ a <> c.
Proof.
  match eval vm_compute in (write_send (ex_wo false true) false ex_c) with
  | Ok [?l] => let a := eval vm_compute in (firstn 11 l) in let b := eval vm_compute in (skipn 11 l) in exists a, b
  end.
  match eval vm_compute in (cpp_prepare_send (MAT ex_c) (MF ex_c) (ex_o false true)) with
  | Val ?l => let a := eval vm_compute in (firstn 11 l) in let b := eval vm_compute in (skipn 11 l) in exists a, b
  end.
  repeat split; try (vm_compute; reflexivity). discriminate.
Qed.
Print Assumptions C50_send_noexp_refuted.

(** A MAT number with five digits: Python widens the control part, C++ overwrites its last
    digit, and the number read back is another one. *)
Theorem C50_wide_MAT_refuted :
  write_ctrl {| MAT := 12625; MF := 3; MT := 0 |} = $"12625 3  0" /\
  exists line, cpp_prepare_send 12625 3 (ex_o false false) = Val line /\ cpp_read_mat_number line = Val 1262.
Proof.
  split; [reflexivity|].
  match eval vm_compute in (cpp_prepare_send 12625 3 (ex_o false false)) with Val ?l => exists l end.
  split; vm_compute; reflexivity.
Qed.
Print Assumptions C50_wide_MAT_refuted.

(** The C++ writer of real numbers removes the zeros at the start of the exponent; of an exponent
    with three digits it removes a zero in the middle or at the end as well, so that 1e100 is
    written as 1e10. Python writes these numbers correctly. *)
Theorem C50_float_exponent_refuted :
  (float2endfstr (ex_o false false) (round64 false (10 ^ 100) 1) = Val $" 1.00000+10" /\
   float2fortstr (ex_wo false false) (NFlt (round64 false (10 ^ 100) 1)) = Ok $" 1.0000+100") /\
  (float2endfstr (ex_o false false) (round64 false 1 (10 ^ 105)) = Val $" 1.00000-15" /\
   float2fortstr (ex_wo false false) (NFlt (round64 false 1 (10 ^ 105))) = Ok $" 1.0000-105").
Proof. repeat split; vm_compute; reflexivity. Qed.
Print Assumptions C50_float_exponent_refuted.

(** ** Sections kept as lines *)

(** The lines of a section (with the same control numbers on every line, at most 99999 of them)
    are written alike, with the SEND record. *)
Theorem C50_verbatim : forall o wo ro, same_options o wo -> cw_keepE o = false -> cw_noexp o = false ->
  r_width ro = 11%nat ->
  forall D (run_recipe : Z -> Z -> D -> result (list str * ctrl)) mf mt c ls, lines_of_section mf c ls ->
  exists num, write_section run_recipe ro wo false mf mt (Raw ls) = Ok (num, c) /\
    write_section_verbatim o ls = Val (text_of num).
Proof. exact @verbatim_same. Qed.
Print Assumptions C50_verbatim.

Definition ex_lines : list str :=
  [ $" 2.605600+4 5.545440+1          0          0          0          02625 3102 some text";
    $"-1.234567+8 1.000000+0          0          0          1          22625 3102";
    $"          2          2                                            2625 3102    7" ].
Example C50_verbatim_example : lines_of_section 3 ex_c ex_lines /\
  write_section_verbatim (ex_o false false) ex_lines = Val (text_of [
    $" 2.605600+4 5.545440+1          0          0          0          02625 3102    1";
    $"-1.234567+8 1.000000+0          0          0          1          22625 3102    2";
    $"          2          2                                            2625 3102    3";
    $" 0.000000+0 0.000000+0          0          0          0          02625 3  099999" ]).
Proof.
  split; [|vm_compute; reflexivity]. split; [discriminate|]. split; [vm_compute; congruence|]. split; [reflexivity|].
  split; [unfold ctrl_fits; cbn; lia|].
  repeat constructor; match goal with |- control_in _ ?l => exists (firstn 66 l), (skipn 75 l) end;
    split; vm_compute; reflexivity.
Qed.

(** Line 100000 of a section: the counter of C++ has a sixth column, that of Python starts
    again. *)
Theorem C50_verbatim_number_refuted : exists l,
  verbatim_line (ex_o false false) 100000 l = Val (firstn 75 l ++ $"100000" ++ [ascii_of_nat 10]) /\
  number_lines 1 99999 [firstn 75 l] = [firstn 75 l ++ $"    1"].
Proof. exists $" 2.605600+4 5.545440+1          0          0          0          02625 3102    1".
  split; vm_compute; reflexivity. Qed.
Print Assumptions C50_verbatim_number_refuted.

(** ** Files *)

(** If for every selected section the functions of the recipe write the same text (sections
    kept as lines: if the lines are in order), then the two writers produce the same file. *)
Theorem C50_file : forall D (run_recipe : Z -> Z -> D -> result (list str * ctrl))
    (run_cpp : Z -> Z -> D -> cpp str) (mat_of : D -> Z) registered o wo ro exclude include,
  same_options o wo -> cw_keepE o = false -> cw_noexp o = false -> r_width ro = 11%nat ->
  forall d lines, is_dict d -> (forall mf mts, In (mf, mts) d -> 0 <= mf) ->
  (forall mf mt s, holds d mf mt s -> selected exclude include mf mt ->
     alike run_recipe run_cpp mat_of ro wo mf mt s /\ registered mf mt = true) ->
  (exists mf mt s, holds d mf mt s /\ mf <> 0 /\ selected exclude include mf mt) ->
  write_tape run_recipe ro wo false exclude include d = Ok lines ->
  master_write run_cpp mat_of registered o exclude include d = Val (text_of lines).
Proof. exact @file_same_selected. Qed.
Print Assumptions C50_file.

(** two sections of MF3 and a section of MF4, all kept as lines *)
Definition ex_mt (mt : Z) : list str := map (fun l => firstn 66 l ++ write_ctrl {| MAT := 2625; MF := 3; MT := mt |}) ex_lines.
Definition ex_mf4 : list str := map (fun l => firstn 66 l ++ write_ctrl {| MAT := 2625; MF := 4; MT := 2 |}) ex_lines.
Definition ex_d : mfdic (section Empty_set) := [(4, [(2, Raw ex_mf4)]); (3, [(102, Raw (ex_mt 102)); (2, Raw (ex_mt 2))])].
Definition no_recipe (mf mt : Z) (d : Empty_set) : result (list str * ctrl) := match d with end.
Definition no_cpp (mf mt : Z) (d : Empty_set) : cpp str := match d with end.
Definition no_mat (d : Empty_set) : Z := match d with end.

Example C50_file_example :
  (forall mf mt s, holds ex_d mf mt s -> selected None None mf mt ->
     alike no_recipe no_cpp no_mat (ctrl_ropts 11) (ex_wo false false) mf mt s /\ true = true) /\
  (exists mf mt s, holds ex_d mf mt s /\ mf <> 0 /\ selected None None mf mt) /\
  exists lines, write_tape no_recipe (ctrl_ropts 11) (ex_wo false false) false None None ex_d = Ok lines /\
    length lines = 16%nat.
Proof.
  split; [|split].
  - intros mf mt s (mts & I & J) _. split; [|reflexivity].
    assert (G : forall c, ctrl_fits c -> lines_of_section (MF c) c (map (fun l => firstn 66 l ++ write_ctrl c) ex_lines)).
    { intros c F. split; [discriminate|]. split; [vm_compute; congruence|]. split; [reflexivity|]. split; [exact F|].
      apply Forall_map. repeat constructor;
        match goal with |- control_in _ (?a ++ _) => exists a, []; rewrite app_nil_r; split; [reflexivity|vm_compute; reflexivity] end. }
    destruct I as [I|[I|[]]]; inversion I; subst; clear I;
      repeat (destruct J as [J|J]; [inversion J; subst; clear J|]); try destruct J; cbn [alike]; eexists;
      (eapply (G {| MAT := _; MF := _; MT := _ |}); unfold ctrl_fits; cbn; lia).
  - exists 4, 2, (Raw ex_mf4). split; [|split; [lia|exact I]]. exists [(2, Raw ex_mf4)]. split; now left.
  - match eval vm_compute in (write_tape no_recipe (ctrl_ropts 11) (ex_wo false false) false None None ex_d) with
    | Ok ?l => exists l
    end.
    split; vm_compute; reflexivity.
Qed.

(** Sections for which there is no recipe (registered is false) are not counted as sections:
    C++ leaves out the FEND record between them, or has no MAT number for the last one. *)
Theorem C50_unregistered_refuted :
  master_write no_cpp no_mat (fun _ _ => false) (ex_o false false) None None ex_d = Undefined /\
  exists t lines,
    master_write no_cpp no_mat (fun mf _ => mf =? 4) (ex_o false false) None None ex_d = Val t /\
    write_tape no_recipe (ctrl_ropts 11) (ex_wo false false) false None None ex_d = Ok lines /\
    length t = 1215%nat /\ length (text_of lines) = 1296%nat.
Proof. split; [vm_compute; reflexivity|]. 
  match eval vm_compute in (master_write no_cpp no_mat (fun mf _ => mf =? 4) (ex_o false false) None None ex_d) with
  | Val ?t => exists t
  end.
  match eval vm_compute in (write_tape no_recipe (ctrl_ropts 11) (ex_wo false false) false None None ex_d) with
  | Ok ?l => exists l
  end.
  repeat split; vm_compute; reflexivity.
Qed.
Print Assumptions C50_unregistered_refuted.
