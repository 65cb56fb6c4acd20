(** C61: the function that the compiler generates for a recipe reads what the Python parser reads. *)
From Coq Require Import Ascii String ZArith Bool Lia List.
From Verif Require Import PyBase ProofPyBase PyFloat ModelFortran ModelRecords ModelNum ModelRecipe ModelInterp ModelRecipes ModelRegistry.
From Verif Require Import ModelTape SpecTape ModelCpp ModelCppTab ModelCppArr SpecFields SpecCpp SpecCppTab SpecCppRead ModelCppGen SpecCppGen SpecLibm SpecTapeEx.
From Verif Require Import ProofCppReadEx ProofCppGenTop.
Import ListNotations.
Open Scope Z_scope.

(** [body]: the lines of the section, [send]: its SEND record, [ends]: the lines from the SEND
    record on, as the compiled parser has them. Whatever the lengths of tables and lists, the
    numbers of loop turns and the depth of the sections: if both parsers accept, the data are the
    same, with the same keys. *)
Theorem C61_compiled_recipe_same : forall o ro wo depth recipe body ends send po d po' d' left notes,
  compile_vars recipe <> None -> names_apart recipe -> same_reading o ro -> Forall plain_line body ->
  parse_recipe (read_env ro wo depth) recipe po (map with_break body ++ [send]) = (Ok d, po') ->
  compiled_run o recipe (body ++ ends) = Val (d', left, notes) -> Forall regular_note notes ->
  same_data d d'.
Proof.
  intros o ro wo depth recipe body ends send po d po' d' left notes CV NA SR NL PR CR NT.
  exact (proj1 (recipe_both body ends send o ro wo depth SR NL recipe po d po' d' left notes CV NA CR NT PR)).
Qed.
Print Assumptions C61_compiled_recipe_same.

(** And the compiled function stops behind the SEND record: the next section is read from its
    first line. *)
Theorem C61_stops_behind_send : forall o ro wo depth recipe body first_end rest send po d po' d' left notes,
  compile_vars recipe <> None -> names_apart recipe -> same_reading o ro -> Forall plain_line body ->
  Forall (fun l => exists mat mf mt, carries 11 l mat mf mt /\ mt <> 0) body ->
  parse_recipe (read_env ro wo depth) recipe po (map with_break body ++ [send]) = (Ok d, po') ->
  compiled_run o recipe (body ++ first_end :: rest) = Val (d', left, notes) -> Forall regular_note notes ->
  left = rest.
Proof.
  intros o ro wo depth recipe body e rest send po d po' d' left notes CV NA SR NL CA PR CR NT.
  apply (proj2 (recipe_both body (e :: rest) send o ro wo depth SR NL recipe po d po' d' left notes CV NA CR NT PR)).
  exact (columns_not_zero ro body (proj1 SR) NL CA).
Qed.
Print Assumptions C61_stops_behind_send.

(** A recipe of a single TEXT record, as that of the tape head. No condition on the run is needed. *)
Theorem C61_tape_head_same : forall o ro wo depth recipe head rest send po d po' d' left notes,
  compile_text recipe <> None -> names_apart recipe -> same_reading o ro -> plain_line head ->
  parse_recipe (read_env ro wo depth) recipe po [with_break head; send] = (Ok d, po') ->
  compiled_text o recipe (head :: rest) = Val (d', left, notes) ->
  same_data d d' /\ left = rest.
Proof.
  intros o ro wo depth recipe head rest send po d po' d' left notes CV NA SR NL PR CR.
  exact (text_recipe_both [head] rest send o ro wo depth SR (Forall_cons _ NL (Forall_nil _)) recipe po d po' d' left notes CV NA ltac:(discriminate) CR PR).
Qed.
Print Assumptions C61_tape_head_same.

(** ** Shipped recipes *)

Definition disjoint_b (a b : list str) : bool := forallb (fun x => negb (existsb (str_eqb x) b)) a.
Lemma disjoint_by a b : disjoint_b a b = true -> disjoint a b.
Proof.
  intros H x I J. unfold disjoint_b in H. rewrite forallb_forall in H. apply H in I. apply negb_true_iff in I.
  assert (existsb (str_eqb x) b = true) by (apply existsb_exists; exists x; split; [exact J|apply str_eqb_refl]). congruence.
Qed.
Definition not_hiding_b (own used outer : list str) : bool :=
  disjoint_b own reserved && disjoint_b (filter (fun x => existsb (str_eqb x) used) own) outer.
Lemma not_hiding_by own used outer : not_hiding_b own used outer = true -> not_hiding own used outer.
Proof.
  intros H. apply andb_true_iff in H as [A B]. split; [now apply disjoint_by|]. apply disjoint_by in B. intros x I J. apply B.
  apply filter_In. split; [exact I|]. apply existsb_exists. exists x. split; [exact J|apply str_eqb_refl].
Qed.
(** Recipes to which the theorem applies as they are. *)
Definition covered : list block := map with_send [mf1_mt451; mf1_mt452; mf3; mf9; mf10; mf13; mf23; mf27; pendf_mf1_mt451; pendf_mf3; pendf_mf23].
Lemma covered_ok : forall r, In r covered -> compile_vars r <> None /\ names_apart r.
Proof.
  intros r I.
  repeat (destruct I as [<-|I]; [split; [vm_compute; discriminate|split; [apply disjoint_by; vm_compute; reflexivity|];
    cbv -[not_hiding disjoint In]; repeat lazymatch goal with |- not_hiding _ _ _ => apply not_hiding_by; vm_compute; reflexivity | |- _ => split end]|]).
  destruct I.
Qed.
Theorem C61_shipped_recipes_same : forall o ro wo depth recipe body ends send po d po' d' left notes,
  In recipe covered -> same_reading o ro -> Forall plain_line body ->
  parse_recipe (read_env ro wo depth) recipe po (map with_break body ++ [send]) = (Ok d, po') ->
  compiled_run o recipe (body ++ ends) = Val (d', left, notes) -> Forall regular_note notes ->
  same_data d d'.
Proof.
  intros o ro wo depth recipe body ends send po d po' d' left notes I. destruct (covered_ok recipe I) as [A B].
  intros SR NL PR CR NT. exact (proj1 (recipe_both body ends send o ro wo depth SR NL recipe po d po' d' left notes A B CR NT PR)).
Qed.
Print Assumptions C61_shipped_recipes_same.

(** The recipe of the tape head is of this kind; it is that of all formats. *)
Lemma head_ok : compile_text mf0_mt0_tapehead <> None /\ names_apart mf0_mt0_tapehead.
Proof. split; [vm_compute; discriminate|]. split; [apply disjoint_by; vm_compute; reflexivity|]. vm_compute. tauto. Qed.

(** ** A case: MF 10 with two subsections *)

Definition ex_co (validate : bool) : copts :=
  {| co_accept := r_spaces default_ro; co_preserve := r_preserve default_ro; co_validate := validate;
     co_checks := {| cp_zero := false; cp_number := false; cp_varspec := false |} |}.
Definition ex_po : popts := {| o_zero := true; o_number := false; o_varspec := false; o_fuzzy := false; o_all := false |}.
Definition ex_python (recipe : block) (body : list str) (send : str) : result dict :=
  fst (parse_recipe (read_env default_ro default_wo 100) recipe ex_po (map with_break body ++ [send])).
Definition note_b (a : note) : bool :=
  match a with
  | Again _ | Empty => false
  | Ranges n lines => forallb (fun k => match read_fort_int (field_no lines 0 k) with Ok _ => true | Err _ => false end) (seq 0 n)
  | Numbers lines => forallb (fun l => number_chars (firstn 66 l)) lines
  | Text c l =>
      match c, cpp_read_mat_number l, cpp_read_mf_number l, cpp_read_mt_number l with
      | Some d, Val a, Val b, Val e => (a =? MAT d) && (b =? MF d) && (e =? MT d)
      | _, _, _, _ => false
      end
  end.
Lemma notes_by l : forallb note_b l = true -> Forall regular_note l.
Proof.
  intros H. rewrite forallb_forall in H. apply Forall_forall. intros [x| |n lines|lines|[d|] ll] I; apply H in I; try discriminate I; cbn [note_b] in I.
  - intros k K. rewrite forallb_forall in I. specialize (I k ltac:(apply in_seq; lia)).
    destruct (read_fort_int (field_no lines 0 k)) as [z|]; [eauto|discriminate].
  - apply Forall_forall. intros x L. rewrite forallb_forall in I. apply number_chars_field. now apply I.
  - destruct (cpp_read_mat_number ll) as [a| |] eqn:E1, (cpp_read_mf_number ll) as [b| |] eqn:E2, (cpp_read_mt_number ll) as [e| |] eqn:E3; try discriminate I.
    apply andb_true_iff in I as [I I3]. apply andb_true_iff in I as [I1 I2]. apply Z.eqb_eq in I1, I2, I3. exists d.
    split; [reflexivity|]. repeat split; congruence.
Qed.
Lemma notes_or (P : note -> Prop) (p : note -> bool) l : (forall a, p a = true -> P a) ->
  forallb (fun a => p a || note_b a) l = true -> Forall (fun a => P a \/ regular_note a) l.
Proof.
  intros HP H. rewrite forallb_forall in H. apply Forall_forall. intros a I. apply H in I. apply orb_true_iff in I as [I|I]; [left; auto|right].
  apply (Forall_inv (l := [])). apply notes_by. cbn [forallb]. now rewrite I.
Qed.
Definition ex_row (t : str) : str := ex_line t 125 10 16.
Definition ex_body : list str :=
  [ex_row $" 1.001000+3 9.991673-1          0          0          2          0";
   ex_row $" 1.0        2.0              1001          1          1          2";
   ex_row $"          2          2";
   ex_row $" 1.000000-5 1.0        2.0000+7   3.0";
   ex_row $" 1.0        2.5              1002          2          1          1";
   ex_row $"          1          2";
   ex_row $" 1.000000-5 4.0"].
Definition ex_send : str := ex_line [] 125 10 0.
Definition run_notes (r : cpp (dict * list str * list note)) : list note := match r with Val (_, _, n) => n | _ => [Empty] end.
Example C61_compiled_recipe_same_case :
  In (with_send mf10) covered /\ same_reading (ex_co true) default_ro /\ Forall plain_line ex_body /\
  (exists d, ex_python (with_send mf10) ex_body ex_send = Ok d) /\
  (exists d', compiled_run (ex_co true) (with_send mf10) (ex_body ++ [ex_send]) =
    Val (d', [], run_notes (compiled_run (ex_co true) (with_send mf10) (ex_body ++ [ex_send]))) /\
    exists s1 s2, dget (KStr $"subsection") d' = Some (VDict [(KInt 1, s1); (KInt 2, s2)])) /\
  Forall regular_note (run_notes (compiled_run (ex_co true) (with_send mf10) (ex_body ++ [ex_send]))).
Proof.
  split; [cbn; tauto|]. split; [repeat split|]. split; [apply plain_lines_by; vm_compute; reflexivity|].
  split; [|split; [|apply notes_by; vm_compute; reflexivity]].
  - destruct (ex_python (with_send mf10) ex_body ex_send) as [d|e] eqn:E; [eauto|]. exfalso. vm_compute in E. discriminate E.
  - destruct (compiled_run (ex_co true) (with_send mf10) (ex_body ++ [ex_send])) as [[[d' l] n]| |] eqn:E; vm_compute in E; try discriminate E.
    injection E as <- <- <-. eexists. split; [reflexivity|]. do 2 eexists. reflexivity.
Qed.

(** ** What fails without the conditions *)

(** A variable without an index that is read in a loop: Python compares the values, C++ keeps the
    last one. *)
Definition ex_again : block :=
  with_send (instrs [
    ICont true (cspec None None None) (fields (rv $"ZA") (rv $"AWR") (rn 0) (rn 0) (rv $"N") (rn 0));
    IFor $"i" (rn 1) (rv $"N") (instrs [
      ICont false (cspec None None None) (fields (rv $"A") (rn 0) (rn 0) (rn 0) (rn 0) (rn 0))])]).
Definition ex_again_body : list str :=
  map (fun t => ex_line t 125 3 16) [$" 1.001000+3 9.991673-1          0          0          2          0"; $" 1.0"; $" 2.0"].
Definition run_ok (r : cpp (dict * list str * list note)) : bool := match r with Val _ => true | _ => false end.
Theorem C61_read_again_refuted : exists recipe body send,
  compile_vars recipe <> None /\ names_apart recipe /\ Forall plain_line body /\
  ex_python recipe body send = Err NumberMismatchError /\ run_ok (compiled_run (ex_co true) recipe (body ++ [send])) = true.
Proof.
  exists ex_again, ex_again_body, (ex_line [] 125 3 0). split; [vm_compute; discriminate|].
  split; [split; [apply disjoint_by; vm_compute; reflexivity|cbv -[not_hiding disjoint In]; repeat split]|].
  split; [apply plain_lines_by; vm_compute; reflexivity|]. split; vm_compute; reflexivity.
Qed.
Print Assumptions C61_read_again_refuted.

(** A LIST without elements: C++ takes one more line, here the SEND record. *)
Definition ex_empty_body : list str :=
  map (fun t => ex_line t 125 1 452) [$" 1.001000+3 9.991673-1          0          1          0          0"; $"        0.0        0.0          0          0          0          0"].
Theorem C61_empty_list_refuted : exists recipe body send fend,
  In recipe covered /\ Forall plain_line body /\
  (exists d, ex_python recipe body send = Ok d) /\
  compiled_run (ex_co true) recipe (body ++ [send; fend]) = Throw /\
  exists d' notes, compiled_run (ex_co false) recipe (body ++ [send; fend]) = Val (d', [], notes) /\
    In Empty notes /\ Forall (fun a => a = Empty \/ regular_note a) notes.
Proof.
  exists (with_send mf1_mt452), ex_empty_body, (ex_line [] 125 1 0), (ex_line [] 125 0 0). split; [cbn; tauto|].
  split; [apply plain_lines_by; vm_compute; reflexivity|]. split; [|split].
  - destruct (ex_python (with_send mf1_mt452) ex_empty_body (ex_line [] 125 1 0)) as [d|e] eqn:E; [eauto|]. exfalso. vm_compute in E. discriminate E.
  - vm_compute. reflexivity.
  - destruct (compiled_run (ex_co false) (with_send mf1_mt452) (ex_empty_body ++ [ex_line [] 125 1 0; ex_line [] 125 0 0])) as [[[d' l] n]| |] eqn:E; vm_compute in E; try discriminate E.
    injection E as <- <- <-. do 2 eexists. split; [reflexivity|]. split; [right; right; now left|].
    apply (notes_or (fun a => a = Empty) (fun a => match a with Empty => true | _ => false end)); [|vm_compute; reflexivity].
    intros a. destruct a; intros H; try discriminate H. reflexivity.
Qed.
Print Assumptions C61_empty_list_refuted.

(** The number of an interpolation range written with an exponent, as [1+1] for 10: C++ reads 1. *)
Definition ex_range_body : list str :=
  map (fun t => ex_line t 125 3 16)
    [$" 1.001000+3 9.991673-1          0          0          0          0"; $" 0.0        0.0                 0          0          1          1";
     $"        1+1          2"; $" 1.000000-5 4.0"].
Definition entry (path : list str) (d : dict) : option val :=
  match path with
  | [a; b] => match dget (KStr a) d with Some (VDict e) => dget (KStr b) e | _ => None end
  | _ => None
  end.
Theorem C61_range_text_refuted : exists recipe body send d d' notes,
  In recipe covered /\ Forall plain_line body /\
  ex_python recipe body send = Ok d /\ compiled_run (ex_co true) recipe (body ++ [send]) = Val (d', [], notes) /\
  entry [$"xstable"; $"NBT"] d = Some (VList [VNum (NInt 10)]) /\ entry [$"xstable"; $"NBT"] d' = Some (VList [VNum (NInt 1)]).
Proof.
  exists (with_send mf3), ex_range_body, (ex_line [] 125 3 0).
  destruct (ex_python (with_send mf3) ex_range_body (ex_line [] 125 3 0)) as [d|e] eqn:E; vm_compute in E; [|discriminate E].
  destruct (compiled_run (ex_co true) (with_send mf3) (ex_range_body ++ [ex_line [] 125 3 0])) as [[[d' l] n]| |] eqn:F; vm_compute in F; try discriminate F.
  injection E as <-. injection F as <- <- <-. do 3 eexists. split; [cbn; tauto|].
  split; [apply plain_lines_by; vm_compute; reflexivity|]. split; [reflexivity|]. split; [reflexivity|]. split; reflexivity.
Qed.
Print Assumptions C61_range_text_refuted.

(** No code is generated for [stop]: what Python rejects as not allowed is accepted. *)
Definition ex_stop : block :=
  with_send (instrs [
    ICont true (cspec None None None) (fields (rv $"ZA") (rv $"AWR") (rn 0) (rn 0) (rv $"N") (rn 0));
    IIf (Branch (CRel REq (rv $"N") (rn 1)) None (instrs [
      ICont false (cspec None None None) (fields (rv $"A") (rn 0) (rn 0) (rn 0) (rn 0) (rn 0))])) RNil (instrs [IStop])]).
Definition ex_stop_body : list str :=
  map (fun t => ex_line t 125 3 16) [$" 1.001000+3 9.991673-1          0          0          2          0"].
Theorem C61_stop_refuted : exists recipe body send d' notes,
  compile_vars recipe <> None /\ names_apart recipe /\ Forall plain_line body /\
  ex_python recipe body send = Err StopException /\
  compiled_run (ex_co true) recipe (body ++ [send]) = Val (d', [], notes) /\ Forall regular_note notes.
Proof.
  exists ex_stop, ex_stop_body, (ex_line [] 125 3 0).
  destruct (compiled_run (ex_co true) ex_stop (ex_stop_body ++ [ex_line [] 125 3 0])) as [[[d' l] n]| |] eqn:F; vm_compute in F; try discriminate F.
  injection F as <- <- <-. do 2 eexists. split; [vm_compute; discriminate|].
  split; [split; [apply disjoint_by; vm_compute; reflexivity|cbv -[not_hiding disjoint In]; repeat split]|].
  split; [apply plain_lines_by; vm_compute; reflexivity|]. split; [vm_compute; reflexivity|]. split; [reflexivity|].
  apply notes_by. vm_compute. reflexivity.
Qed.
Print Assumptions C61_stop_refuted.

(** ** A case with hidden names: MF 13, where the columns of both tables are called E *)

Definition ex_row13 (t : str) : str := ex_line t 125 13 102.
Definition ex_body13 : list str :=
  [ex_row13 $" 1.001000+3 9.991673-1          0          0          2          0";
   ex_row13 $" 0.0        0.0                 0          0          1          2";
   ex_row13 $"          2          2";
   ex_row13 $" 1.000000-5 1.0        2.0000+7   3.0";
   ex_row13 $" 1.0        2.5                 0          1          1          1";
   ex_row13 $"          1          2";
   ex_row13 $" 1.000000-5 4.0";
   ex_row13 $" 2.0        2.5                 0          1          1          1";
   ex_row13 $"          1          2";
   ex_row13 $" 1.000000-5 5.0"].
Example C61_hidden_names_case :
  In (with_send mf13) covered /\ Forall plain_line ex_body13 /\
  (exists d, ex_python (with_send mf13) ex_body13 (ex_line [] 125 13 0) = Ok d) /\
  run_ok (compiled_run (ex_co true) (with_send mf13) (ex_body13 ++ [ex_line [] 125 13 0])) = true /\
  Forall regular_note (run_notes (compiled_run (ex_co true) (with_send mf13) (ex_body13 ++ [ex_line [] 125 13 0]))).
Proof.
  split; [cbn; tauto|]. split; [apply plain_lines_by; vm_compute; reflexivity|].
  split; [|split; [vm_compute; reflexivity|apply notes_by; vm_compute; reflexivity]].
  destruct (ex_python (with_send mf13) ex_body13 (ex_line [] 125 13 0)) as [d|e] eqn:E; [eauto|]. exfalso. vm_compute in E. discriminate E.
Qed.

(** ** A case with texts and a directory: MF 1, MT 451 *)

Definition ex_row451 (t : str) : str := ex_line t 125 1 451.
Definition ex_body451_with (mat : Z) : list str :=
  map ex_row451
    [$" 1.001000+3 9.991673-1          1          0          0          1";
     $" 0.0        0.0                 0          0          0          6";
     $" 1.0        2.0000+7            8          0         10          8";
     $" 0.0        0.0                 0          0          6          2";
     $"  1-H -  1 LANL       EVAL-OCT05 G.M.Hale";
     $" CH99,1               DIST-DEC06                       20111222";
     $"----ENDF/B-VIII       MATERIAL  125";
     $"-----INCIDENT NEUTRON DATA";
     $"------ENDF-6 FORMAT"] ++
  [ex_line $" a line of the description" mat 1 451] ++
  map ex_row451
    [$"                                1        451          9          1";
     $"                                3          1          4          0"].
Definition ex_body451 : list str := ex_body451_with 125.
Example C61_texts_case :
  In (with_send mf1_mt451) covered /\ Forall plain_line ex_body451 /\
  (exists d, ex_python (with_send mf1_mt451) ex_body451 (ex_line [] 125 1 0) = Ok d /\
     dget (KStr $"ZSYMAM") d = Some (VStr $"  1-H -  1 ") /\ dget (KStr $"NCx") d = Some (VDict [(KInt 1, vint 9); (KInt 2, vint 4)])) /\
  run_ok (compiled_run (ex_co true) (with_send mf1_mt451) (ex_body451 ++ [ex_line [] 125 1 0])) = true /\
  Forall regular_note (run_notes (compiled_run (ex_co true) (with_send mf1_mt451) (ex_body451 ++ [ex_line [] 125 1 0]))).
Proof.
  split; [cbn; tauto|]. split; [apply plain_lines_by; vm_compute; reflexivity|].
  split; [|split; [vm_compute; reflexivity|apply notes_by; vm_compute; reflexivity]].
  destruct (ex_python (with_send mf1_mt451) ex_body451 (ex_line [] 125 1 0)) as [d|e] eqn:E; vm_compute in E; [|discriminate E].
  injection E as <-. eexists. split; [reflexivity|]. split; reflexivity.
Qed.

(** With another material number in the last line of text, Python returns that number, C++ the number
    of the first line. *)
Theorem C61_text_numbers_refuted : exists recipe body send d d' notes,
  In recipe covered /\ Forall plain_line body /\
  ex_python recipe body send = Ok d /\ compiled_run (ex_co false) recipe (body ++ [send]) = Val (d', [], notes) /\
  Forall (fun a => (exists c l, a = Text c l) \/ regular_note a) notes /\
  dget (KStr $"MAT") d = Some (vint 126) /\ dget (KStr $"MAT") d' = Some (vint 125).
Proof.
  exists (with_send mf1_mt451), (ex_body451_with 126), (ex_line [] 125 1 0).
  match goal with |- context [ex_python ?r ?b ?s = Ok _] => destruct (ex_python r b s) as [d|e] eqn:E; vm_compute in E; [|discriminate E] end.
  match goal with |- context [compiled_run ?o ?r ?l = Val _] => destruct (compiled_run o r l) as [[[d' l'] n]| |] eqn:F; vm_compute in F; try discriminate F end.
  injection E as <-. injection F as <- <- <-. do 3 eexists. split; [cbn; tauto|].
  split; [apply plain_lines_by; vm_compute; reflexivity|]. split; [reflexivity|]. split; [reflexivity|]. split; [|split; reflexivity].
  apply (notes_or (fun a => exists c l, a = Text c l) (fun a => match a with Text _ _ => true | _ => false end)); [|vm_compute; reflexivity].
  intros a. destruct a; intros H; try discriminate H. eauto.
Qed.
Print Assumptions C61_text_numbers_refuted.

(** ** A case: the tape head *)

Definition ex_head : str := ex_line $" $Rev::     $  $Date::            $" 1 0 0.
Example C61_tape_head_case :
  plain_line ex_head /\
  (exists d, ex_python mf0_mt0_tapehead [ex_head] (ex_line [] 1 0 0) = Ok d /\ dget (KStr $"MAT") d = Some (vint 1) /\
     dget (KStr $"TAPEDESCR") d = Some (VStr $" $Rev::     $  $Date::            $                               ")) /\
  run_ok (compiled_text (ex_co true) mf0_mt0_tapehead (ex_head :: ex_body)) = true.
Proof.
  split; [apply (Forall_inv (l := [])), plain_lines_by; vm_compute; reflexivity|]. split; [|vm_compute; reflexivity].
  destruct (ex_python mf0_mt0_tapehead [ex_head] (ex_line [] 1 0 0)) as [d|e] eqn:E; vm_compute in E; [|discriminate E].
  injection E as <-. eexists. split; [reflexivity|]. split; reflexivity.
Qed.
