(** C62: the function that the compiler generates for a recipe writes what the Python writer writes. *)
From Coq Require Import Ascii String ZArith Bool Lia List.
From Coq Require Import Floats.SpecFloat.
From Verif Require Import PyBase ProofPyBase PyFloat ModelFortran ModelRecords ModelTape ModelNum ModelRecipe ModelInterp ModelRecipes ModelRegistry ModelParser.
From Verif Require Import ModelCpp ModelCppTab ModelCppArr ModelCppRead ModelCppGen ModelCppFile ModelCppWrite ModelCppWriteFile.
From Verif Require Import SpecFields SpecTape SpecInterp SpecCpp SpecCppTab SpecCppRead SpecCppGen SpecCppWrite SpecLibm SpecTapeEx.
From Verif Require Import ProofTapeWrite ProofCppWrite ProofCppWriteTop ThmCppGen ThmCppFile.
Import ListNotations.
Open Scope Z_scope.

(** What the Python writer does with one section: the lines with control columns and numbers,
    and the control numbers. *)
Definition python_section (ro : ropts) (wo : wopts) (depth : nat) (explain : bool) (po : popts) (recipe : block) (mf mt : Z) (d : dict)
  : result (list str * ctrl) :=
  write_section (fun a b e => fst (write_recipe (write_env ro wo false depth) explain recipe po a b e)) ro wo false mf mt (Parsed d).

(** ** Sections *)

(** Whatever the lengths of tables and lists, the numbers of loop turns and the depth of the
    sections: if both writers accept the dictionary [d], they write the same text, provided that
    the run was regular (SpecCppWrite.v): numbers that the two languages print alike, texts that
    fill their fields, lists that fill their last line. *)
Theorem C62_sections_same : forall o preserve wo ro depth explain po recipe mf mt mto mat d num c text notes,
  same_options o wo -> cw_keepE o = false -> cw_noexp o = false ->
  compile_vars recipe <> None -> mf <> 0 -> clean (VDict d) -> (mto = None \/ mto = Some mt) ->
  dget (KStr $"MAT") d = Some (vint mat) -> ctrl_fits {| MAT := mat; MF := mf; MT := mt |} ->
  python_section ro wo depth explain po recipe mf mt d = Ok (num, c) ->
  compiled_write o preserve recipe mf mto d = Val (text, notes) -> Forall (regular_wnote o preserve wo true) notes ->
  text = text_of num.
Proof.
  intros o preserve wo ro depth explain po recipe mf mt mto mat d num c text notes SO KE NE CV NZ CL MO GM CF PY CP RN.
  destruct (section_both o preserve ro wo true depth SO KE NE explain po recipe mf mt mto mat d num c text notes CV NZ CL MO GM CF PY CP RN) as (_ & ls & -> & F).
  now rewrite (lines_same _ _ _ F).
Qed.
Print Assumptions C62_sections_same.

(** Without the condition on the last lines of lists: line by line the same, except that C++ leaves
    the fields behind the last element of a list blank and Python writes zeros. *)
Theorem C62_sections_padding : forall o preserve wo ro depth explain po recipe mf mt mto mat d num c text notes,
  same_options o wo -> cw_keepE o = false -> cw_noexp o = false ->
  compile_vars recipe <> None -> mf <> 0 -> clean (VDict d) -> (mto = None \/ mto = Some mt) ->
  dget (KStr $"MAT") d = Some (vint mat) -> ctrl_fits {| MAT := mat; MF := mf; MT := mt |} ->
  python_section ro wo depth explain po recipe mf mt d = Ok (num, c) ->
  compiled_write o preserve recipe mf mto d = Val (text, notes) -> Forall (regular_wnote o preserve wo false) notes ->
  exists lines, text = text_of lines /\ Forall2 (line_alike wo false) num lines.
Proof.
  intros o preserve wo ro depth explain po recipe mf mt mto mat d num c text notes SO KE NE CV NZ CL MO GM CF PY CP RN.
  exact (proj2 (section_both o preserve ro wo false depth SO KE NE explain po recipe mf mt mto mat d num c text notes CV NZ CL MO GM CF PY CP RN)).
Qed.
Print Assumptions C62_sections_padding.

(** The head of the tape: its recipe is a single TEXT record. *)
Theorem C62_tape_head_same : forall o preserve wo ro depth explain po recipe mto mat d num c text notes,
  same_options o wo ->
  compile_text recipe <> None -> clean (VDict d) -> (mto = None \/ mto = Some 0) ->
  dget (KStr $"MAT") d = Some (vint mat) -> ctrl_fits {| MAT := mat; MF := 0; MT := 0 |} ->
  python_section ro wo depth explain po recipe 0 0 d = Ok (num, c) ->
  compiled_write_text o preserve recipe 0 mto d = Val (text, notes) -> Forall (regular_wnote o preserve wo true) notes ->
  text = text_of num.
Proof.
  intros o preserve wo ro depth explain po recipe mto mat d num c text notes SO CV CL MO GM CF PY CP RN.
  exact (proj2 (head_both o preserve ro wo depth SO explain po recipe mto mat d num c text notes CV CL MO GM CF PY CP RN)).
Qed.
Print Assumptions C62_tape_head_same.

(** ** Files *)

(** A section that the theorems above cover: kept as lines that are in order, or a dictionary whose
    recipe is in the model of the compiler and that the compiled function writes regularly. *)
Definition covered_writing (o : cwopts) (preserve : bool) (wo : wopts) (rs : recipes) (mf mt : Z) (s : section dict) : Prop :=
  match s with
  | Raw ls => exists c, lines_of_section mf c ls
  | Parsed d => exists b mat text notes, find_recipe rs mf mt = Some b /\ clean (VDict d) /\
      dget (KStr $"MAT") d = Some (vint mat) /\ ctrl_fits {| MAT := mat; MF := mf; MT := mt |} /\
      Forall (regular_wnote o preserve wo true) notes /\
      ((mf <> 0 /\ compile_vars b <> None /\ compiled_write o preserve b mf (recipe_mt rs mf mt) d = Val (text, notes)) \/
       (mf = 0 /\ mt = 0 /\ compile_text b <> None /\ compiled_write_text o preserve b mf (recipe_mt rs mf mt) d = Val (text, notes)))
  end.

(** If every selected section is covered, the module that the compiler makes of the recipes writes
    the file that the Python writer writes. *)
Theorem C62_whole_files_same : forall p o preserve other exclude include po d lines,
  same_options o (p_wo p) -> cw_keepE o = false -> cw_noexp o = false -> r_width (p_ro p) = 11%nat ->
  is_dict d -> (forall mf mts, In (mf, mts) d -> 0 <= mf) ->
  (forall mf mt s, holds d mf mt s -> selected exclude include mf mt ->
     has_recipe (p_recipes p) mf mt = true /\ covered_writing o preserve (p_wo p) (p_recipes p) mf mt s) ->
  (exists mf mt s, holds d mf mt s /\ mf <> 0 /\ selected exclude include mf mt) ->
  write p false exclude include po d = Ok lines ->
  compiled_write_file o preserve (p_recipes p) other exclude include d = Val (text_of lines).
Proof.
  intros p o preserve other exclude include po d lines SO KE NE W DD NN CV EX PY.
  apply (@file_same_selected dict (write_one p false po) (compiled_section o preserve (p_recipes p) other) compiled_mat (has_recipe (p_recipes p)) o (p_wo p) (p_ro p) exclude include SO KE NE W d lines); auto.
  intros mf mt s HS SE. destruct (CV mf mt s HS SE) as [HR C]. split; [|exact HR]. destruct s as [ls|e]; [exact C|].
  destruct C as (b & mat & text & notes & FB & CL & GM & CF & RN & C). cbn [alike]. intros num c PS.
  assert (MM : compiled_mat e = mat) by (unfold compiled_mat; now rewrite GM).
  assert (MO : recipe_mt (p_recipes p) mf mt = None \/ recipe_mt (p_recipes p) mf mt = Some mt).
  { unfold recipe_mt. destruct (zget mf (p_recipes p)) as [[|l]|]; auto. destruct (zget mt l); auto. destruct (mt =? -1); auto. }
  assert (PS' : python_section (p_ro p) (p_wo p) (p_depth p) (p_explain p) po b mf mt e = Ok (num, c)).
  { unfold python_section. cbn [write_section] in PS |- *. unfold write_one in PS. rewrite FB in PS. exact PS. }
  unfold compiled_section. rewrite FB. destruct C as [(NZ & CO & CP)|(-> & -> & CO & CP)].
  - destruct (section_both o preserve (p_ro p) (p_wo p) true (p_depth p) SO KE NE (p_explain p) po b mf mt _ mat e num c text notes CO NZ CL MO GM CF PS' CP RN) as (EC & ls & -> & F).
    rewrite EC, MM. cbn [MAT]. apply lines_same in F as <-. split; [reflexivity|]. split; [apply CF|].
    destruct (compile_vars b); [|now elim CO]. rewrite CP. reflexivity.
  - destruct (head_both o preserve (p_ro p) (p_wo p) (p_depth p) SO (p_explain p) po b _ mat e num c text notes CO CL MO GM CF PS' CP RN) as (EC & ->).
    rewrite EC, MM. cbn [MAT]. split; [reflexivity|]. split; [apply CF|].
    destruct (compile_vars b) eqn:CVb. { exfalso. clear -CO CVb. destruct b as [|[] [|]]; try (now elim CO); discriminate CVb. }
    destruct (compile_text b); [|now elim CO]. rewrite CP. reflexivity.
Qed.
Print Assumptions C62_whole_files_same.

(** ** A case: the tape head, MF 1/MT 451, MF 3 and MF 10 *)

Definition ex_cw : cwopts := {| cw_abuse := false; cw_keepE := false; cw_noexp := false; cw_skip := false; cw_linenum := true |}.
Definition no_other (b : block) (d : dict) : cpp str := Undefined.
Definition parsed_file : mfdic (section dict) :=
  match parse ex_parser false None None ex_po (map with_break (tape_lines ex_file)) with (Ok d, _) => d | _ => [] end.
Definition ex_dict : mfdic (section dict) := Eval vm_compute in parsed_file.

(** the conditions, as functions *)
Fixpoint is_clean (n : nat) (v : val) : bool :=
  match n, v with
  | _, VDict d =>
      match n with
      | O => false
      | S n => forallb (fun p => match fst p with
                                 | KStr x => negb (str_eqb x $"__up" || str_eqb x $"__abbrevs" || str_eqb x $"__startidcs")
                                 | KInt _ => true end && is_clean n (snd p)) d
      end
  | _, _ => true
  end.
Lemma dget_in k d v : dget k d = Some v -> In (k, v) d.
Proof. induction d as [|[j w] d IH]; cbn [dget]; [discriminate|]. destruct (key_eqb k j) eqn:E; [|right; auto]. intros H. injection H as ->. apply ProofInterpSec.key_eqb_eq in E. subst j. now left. Qed.
Lemma is_clean_ok : forall n v, is_clean n v = true -> clean v.
Proof.
  induction n as [|n IH]; intros v H; (destruct v as [| | |d| | | |]; try (apply cl_other; discriminate)).
  cbn [is_clean] in H. rewrite forallb_forall in H. apply cl_dict.
  - intros k W. destruct (dget k d) as [v|] eqn:G; [|reflexivity]. apply dget_in in G. apply H in G. cbn [fst snd] in G.
    destruct W as [-> |[-> | ->]]; discriminate G.
  - intros k v G. apply dget_in in G. apply H in G. apply andb_true_iff in G as [_ G]. now apply IH.
Qed.
Definition is_regular (o : cwopts) (preserve : bool) (wo : wopts) (whole : bool) (n : wnote) : bool :=
  match n with
  | Hidden _ | Unwritten _ | Control _ | NoElements => false
  | Real v e => match float2fortstr wo v, cpp_endf_text o preserve e with
                | Ok a, Val b => str_eqb a b && (length a =? 11)%nat
                | _, _ => false
                end
  | TextSize k t => (length t =? k)%nat
  | Padding => negb whole
  end.
Lemma regular_by o preserve wo whole l : forallb (is_regular o preserve wo whole) l = true -> Forall (regular_wnote o preserve wo whole) l.
Proof.
  intros H. rewrite Forall_forall. rewrite forallb_forall in H. intros n I. apply H in I. clear H.
  destruct n as [x|x|v e|k t| | |x]; cbn [is_regular regular_wnote] in *; try discriminate I.
  - unfold same_text. destruct (float2fortstr wo v) as [a|]; [|discriminate]. destruct (cpp_endf_text o preserve e) as [b| |]; try discriminate.
    apply andb_true_iff in I as [E L]. apply str_eqb_eq in E. subst b. apply Nat.eqb_eq in L. eauto.
  - now apply Nat.eqb_eq in I.
  - now apply negb_true_iff in I.
Qed.

Definition writes_well (o : cwopts) (x : cpp (str * list wnote)) : bool :=
  match x with Val (_, n) => forallb (is_regular o false default_wo true) n | _ => false end.
Definition has_mat (d : dict) (mat : Z) : bool :=
  match dget (KStr $"MAT") d with Some (VNum (NInt z)) => z =? mat | _ => false end.
Definition fits_by (mat mf mt : Z) : bool :=
  (-999 <? mat) && (mat <? 10000) && (-9 <? mf) && (mf <? 100) && (-99 <? mt) && (mt <? 1000).
Lemma fits_by_ok mat mf mt : fits_by mat mf mt = true -> ctrl_fits {| MAT := mat; MF := mf; MT := mt |}.
Proof. unfold fits_by. intros H. repeat (apply andb_true_iff in H as [H ?]). unfold ctrl_fits. cbn. lia. Qed.
Lemma has_mat_ok d mat : has_mat d mat = true -> dget (KStr $"MAT") d = Some (vint mat).
Proof.
  unfold has_mat. destruct (dget (KStr $"MAT") d) as [[[z| |]| | | | | | |]|]; try discriminate. intros E. apply Z.eqb_eq in E. now subst z.
Qed.
Definition section_fine (mf mt mat : Z) (d : dict) : bool :=
  is_clean 9 (VDict d) && has_mat d mat && fits_by mat mf mt &&
  match find_recipe endf6 mf mt with
  | Some b => match compile_vars b with Some _ => writes_well ex_cw (compiled_write ex_cw false b mf (recipe_mt endf6 mf mt) d) | None => false end
  | None => false end.
Lemma section_case d mf mt mat : (mf =? 0) = false -> section_fine mf mt mat d = true -> covered_writing ex_cw false default_wo endf6 mf mt (Parsed d).
Proof.
  intros Z H. unfold section_fine in H. apply andb_true_iff in H as [H W]. apply andb_true_iff in H as [H F]. apply andb_true_iff in H as [C M].
  destruct (find_recipe endf6 mf mt) as [b|] eqn:E; [|discriminate]. destruct (compile_vars b) eqn:CV; [|discriminate]. unfold writes_well in W.
  destruct (compiled_write _ _ _ _ _ _) as [[t n]| |] eqn:R; try discriminate. exists b, mat, t, n. split; [exact E|]. split; [now apply is_clean_ok in C|].
  split; [now apply has_mat_ok|]. split; [now apply fits_by_ok|]. split; [now apply regular_by|]. left. split; [now apply Z.eqb_neq|]. split; [rewrite CV; discriminate|exact R].
Qed.
Definition head_fine (mat : Z) (d : dict) : bool :=
  is_clean 9 (VDict d) && has_mat d mat && fits_by mat 0 0 &&
  match find_recipe endf6 0 0 with
  | Some b => match compile_text b with Some _ => writes_well ex_cw (compiled_write_text ex_cw false b 0 (recipe_mt endf6 0 0) d) | None => false end
  | None => false end.
Lemma head_case d mat : head_fine mat d = true -> covered_writing ex_cw false default_wo endf6 0 0 (Parsed d).
Proof.
  intros H. unfold head_fine in H. apply andb_true_iff in H as [H W]. apply andb_true_iff in H as [H F]. apply andb_true_iff in H as [C M].
  destruct (find_recipe endf6 0 0) as [b|] eqn:E; [|discriminate]. destruct (compile_text b) eqn:CV; [|discriminate]. unfold writes_well in W.
  destruct (compiled_write_text _ _ _ _ _ _) as [[t n]| |] eqn:R; try discriminate. exists b, mat, t, n. split; [exact E|]. split; [now apply is_clean_ok in C|].
  split; [now apply has_mat_ok|]. split; [now apply fits_by_ok|]. split; [now apply regular_by|]. right. repeat (split; [reflexivity|]). split; [rewrite CV; discriminate|exact R].
Qed.

Example C62_whole_files_case :
  parsed_file = ex_dict /\ same_options ex_cw default_wo /\ is_dict ex_dict /\ (forall mf mts, In (mf, mts) ex_dict -> 0 <= mf) /\
  (forall mf mt s, holds ex_dict mf mt s -> selected None None mf mt ->
     has_recipe endf6 mf mt = true /\ covered_writing ex_cw false default_wo endf6 mf mt s) /\
  (exists mf mt s, holds ex_dict mf mt s /\ mf <> 0 /\ selected None None mf mt) /\
  (exists lines, write ex_parser false None None ex_po ex_dict = Ok lines /\ length lines = 32%nat).
Proof.
  split; [vm_compute; reflexivity|]. split; [repeat split|].
  split. { unfold is_dict. change (map fst ex_dict) with [0; 1; 3; 10]. repeat constructor; cbn [In]; intros H; repeat (destruct H as [H|H]; [discriminate H|]); exact H. }
  split. { intros mf mts I. unfold ex_dict in I. repeat (destruct I as [I|I]; [injection I as <- _; lia|]). destruct I. }
  split.
  { intros mf mt s (mts & I & J) _. unfold ex_dict in I.
    repeat (destruct I as [I|I]; [injection I as <- <-; repeat (destruct J as [J|J]; [injection J as <- <-; split; [vm_compute; reflexivity|]|]); try destruct J|]); try destruct I.
    - eapply (head_case _ 1); vm_compute; reflexivity.
    - eapply (section_case _ 1 451 125); vm_compute; reflexivity.
    - eapply (section_case _ 3 1 125); vm_compute; reflexivity.
    - eapply (section_case _ 10 16 125); vm_compute; reflexivity. }
  split. { exists 3, 1. unfold holds, ex_dict. eexists. split; [eexists; split; [right; right; left; reflexivity|left; reflexivity]|]. split; [discriminate|apply selected_iff; reflexivity]. }
  eexists. split; vm_compute; reflexivity.
Qed.

(** The shipped recipes of which the compiled function is in the model. *)
Theorem C62_shipped_recipes_same : forall o preserve wo ro depth explain po recipe mf mt mto mat d num c text notes,
  In recipe covered ->
  same_options o wo -> cw_keepE o = false -> cw_noexp o = false ->
  mf <> 0 -> clean (VDict d) -> (mto = None \/ mto = Some mt) ->
  dget (KStr $"MAT") d = Some (vint mat) -> ctrl_fits {| MAT := mat; MF := mf; MT := mt |} ->
  python_section ro wo depth explain po recipe mf mt d = Ok (num, c) ->
  compiled_write o preserve recipe mf mto d = Val (text, notes) -> Forall (regular_wnote o preserve wo true) notes ->
  text = text_of num.
Proof.
  intros o preserve wo ro depth explain po recipe mf mt mto mat d num c text notes IC SO KE NE.
  apply C62_sections_same; auto. exact (proj1 (covered_ok recipe IC)).
Qed.
Print Assumptions C62_shipped_recipes_same.

(** ** Where the two writers differ *)

Definition kv (x : string) (v : val) : key * val := (KStr $x, v).
Definition one : val := VNum (NFlt (S754_finite false 4503599627370496 (-52))).
(** a section MF 1/MT 452 with coefficients *)
Definition ex_nubar (za : val) (cs : list val) : dict :=
  [kv "MAT" (vint 125); kv "ZA" za; kv "AWR" one; kv "LNU" (vint 1); kv "NC" (vint (Z.of_nat (length cs)));
   kv "C" (VDict (combine (map (fun i => KInt (Z.of_nat i)) (seq 1 (length cs))) cs))].
Definition python_ex (recipe : block) (mf mt : Z) (d : dict) : result (list str * ctrl) :=
  python_section default_ro default_wo 100 false ex_po recipe mf mt d.
Definition run_wnotes (x : cpp (str * list wnote)) : list wnote := match x with Val (_, n) => n | _ => [] end.

(** C62_sections_same does not hold for lists that do not fill their last line: *)
Theorem C62_list_padding_refuted : exists recipe mf mt mat d num text notes,
  In recipe covered /\ clean (VDict d) /\ dget (KStr $"MAT") d = Some (vint mat) /\ ctrl_fits {| MAT := mat; MF := mf; MT := mt |} /\ mf <> 0 /\
  python_ex recipe mf mt d = Ok (num, {| MAT := mat; MF := mf; MT := mt |}) /\
  compiled_write ex_cw false recipe mf (Some mt) d = Val (text, notes) /\ Forall (regular_wnote ex_cw false default_wo false) notes /\
  nth 2 num [] = $" 1.000000+0 1.000000+0 0.000000+0 0.000000+0 0.000000+0 0.000000+0 125 1452    3" /\
  firstn 81 (skipn 162 text) = $" 1.000000+0 1.000000+0                                             125 1452    3" ++ [ascii_of_nat 10].
Proof.
  exists (with_send mf1_mt452), 1, 452, 125, (ex_nubar one [one; one]).
  destruct (python_ex (with_send mf1_mt452) 1 452 (ex_nubar one [one; one])) as [[num c]|e] eqn:E; vm_compute in E; [|discriminate E].
  destruct (compiled_write ex_cw false (with_send mf1_mt452) 1 (Some 452) (ex_nubar one [one; one])) as [[t n]| |] eqn:F; vm_compute in F; try discriminate F.
  injection E as <- <-. injection F as <- <-. do 3 eexists. split; [cbn; tauto|]. split; [apply (is_clean_ok 9); vm_compute; reflexivity|].
  split; [reflexivity|]. split; [apply fits_by_ok; vm_compute; reflexivity|]. split; [discriminate|]. split; [reflexivity|]. split; [reflexivity|].
  split; [apply regular_by; vm_compute; reflexivity|]. split; vm_compute; reflexivity.
Qed.
Print Assumptions C62_list_padding_refuted.

(** An empty list: Python writes no line, C++ a blank one, so the section has one line more. *)
Theorem C62_empty_list_refuted : exists recipe mf mt mat d num text notes,
  In recipe covered /\ clean (VDict d) /\ dget (KStr $"MAT") d = Some (vint mat) /\ ctrl_fits {| MAT := mat; MF := mf; MT := mt |} /\ mf <> 0 /\
  python_ex recipe mf mt d = Ok (num, {| MAT := mat; MF := mf; MT := mt |}) /\
  compiled_write ex_cw false recipe mf (Some mt) d = Val (text, notes) /\
  length num = 3%nat /\ length text = (4 * 81)%nat /\
  firstn 80 (skipn 162 text) = spaces 66 ++ $" 125 1452    3".
Proof.
  exists (with_send mf1_mt452), 1, 452, 125, (ex_nubar one []).
  destruct (python_ex (with_send mf1_mt452) 1 452 (ex_nubar one [])) as [[num c]|e] eqn:E; vm_compute in E; [|discriminate E].
  destruct (compiled_write ex_cw false (with_send mf1_mt452) 1 (Some 452) (ex_nubar one [])) as [[t n]| |] eqn:F; vm_compute in F; try discriminate F.
  injection E as <- <-. injection F as <- <-. do 3 eexists. split; [cbn; tauto|]. split; [apply (is_clean_ok 9); vm_compute; reflexivity|].
  split; [reflexivity|]. split; [apply fits_by_ok; vm_compute; reflexivity|]. split; [discriminate|]. split; [reflexivity|]. split; [reflexivity|].
  split; [reflexivity|]. split; vm_compute; reflexivity.
Qed.
Print Assumptions C62_empty_list_refuted.

(** A Python integer as the value of a real field: the Python writer accepts it, the compiled
    function raises an exception. *)
Theorem C62_integer_value_refuted : exists recipe mf mt d,
  In recipe covered /\ clean (VDict d) /\ dget (KStr $"ZA") d = Some (vint 1001) /\
  (exists num c, python_ex recipe mf mt d = Ok (num, c)) /\
  compiled_write ex_cw false recipe mf (Some mt) d = Throw.
Proof.
  exists (with_send mf1_mt452), 1, 452, (ex_nubar (vint 1001) [one; one]). split; [cbn; tauto|]. split; [apply (is_clean_ok 9); vm_compute; reflexivity|].
  split; [reflexivity|]. split; [|vm_compute; reflexivity].
  destruct (python_ex (with_send mf1_mt452) 1 452 (ex_nubar (vint 1001) [one; one])) as [[num c]|e] eqn:E; [eauto|]. exfalso. vm_compute in E. discriminate E.
Qed.
Print Assumptions C62_integer_value_refuted.

(** A text that is shorter than its field: Python fills the field with spaces, in C++ the
    control columns move to the left. *)
Theorem C62_short_text_refuted : exists d num c text notes,
  clean (VDict d) /\ dget (KStr $"MAT") d = Some (vint 1) /\
  python_ex mf0_mt0_tapehead 0 0 d = Ok (num, c) /\ compiled_write_text ex_cw false mf0_mt0_tapehead 0 (Some 0) d = Val (text, notes) /\
  text_of num = $"a tape" ++ spaces 60 ++ $"   1 0  0    0" ++ [ascii_of_nat 10] /\
  text = $"a tape   1 0  0    0" ++ [ascii_of_nat 10].
Proof.
  exists [kv "MAT" (vint 1); kv "TAPEDESCR" (VStr $"a tape")].
  destruct (python_ex mf0_mt0_tapehead 0 0 [kv "MAT" (vint 1); kv "TAPEDESCR" (VStr $"a tape")]) as [[num c]|e] eqn:E; vm_compute in E; [|discriminate E].
  destruct (compiled_write_text ex_cw false mf0_mt0_tapehead 0 (Some 0) [kv "MAT" (vint 1); kv "TAPEDESCR" (VStr $"a tape")]) as [[t n]| |] eqn:F; vm_compute in F; try discriminate F.
  injection E as <- <-. injection F as <- <-. do 4 eexists. split; [apply (is_clean_ok 9); vm_compute; reflexivity|]. split; [reflexivity|].
  split; [reflexivity|]. split; [reflexivity|]. split; vm_compute; reflexivity.
Qed.
Print Assumptions C62_short_text_refuted.
