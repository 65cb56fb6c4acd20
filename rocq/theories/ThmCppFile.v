(** C61: whole files read by the module that the compiler makes of the recipes. *)
From Coq Require Import Ascii String ZArith Bool Lia List.
From Verif Require Import PyBase ProofPyBase PyFloat ModelFortran ModelRecords ModelTape ModelNum ModelRecipe ModelInterp ModelRecipes ModelRegistry ModelParser.
From Verif Require Import ModelCpp ModelCppTab ModelCppArr ModelCppRead ModelCppGen ModelCppFile.
From Verif Require Import SpecFields SpecTape SpecCpp SpecCppTab SpecCppRead SpecCppGen SpecLibm SpecTapeEx.
From Verif Require Import ProofFields ProofTape ProofTapeWrite ProofCppReadEx ProofCppGenTop ProofCppFile ThmCppGen.
Import ListNotations.
Open Scope Z_scope.

(** A section that the theorem about compiled recipes covers: its recipe is in the model of the
    compiler, and the run of the compiled function is regular. *)
Definition covered_section (co : copts) (rs : recipes) (mf : Z) (s : tsection) : Prop :=
  exists b, find_recipe rs mf (s_mt s) = Some b /\ compile_vars b <> None /\ names_apart b /\
    forall rest d left notes, compiled_run co b (s_body s ++ s_send s :: rest) = Val (d, left, notes) -> Forall regular_note notes.

(** The same for the head of the tape; its recipe is a single TEXT record. *)
Definition covered_head (rs : recipes) : Prop :=
  exists b, find_recipe rs 0 0 = Some b /\ compile_text b <> None /\ names_apart b.

(** A file with one material, each section once, nothing behind the TEND record, all sections with
    a recipe. If both the Python parser and the compiled parser accept it, they return the same
    sections with the same data, provided that the sections that are parsed are covered; the other
    sections are returned as the same lines. If control records are validated, all sections are
    parsed (C59_copied_lines: C++ rejects copied ones). *)
Theorem C61_whole_files_same : forall p co o other exc inc po t m d po' d',
  same_reading co (p_ro p) -> cr_accept o = co_accept co -> w_width (p_wo p) = 11%nat -> strict (p_ro p) ->
  tape_ok (p_ro p) t -> t_mats t = [m] -> t_rest t = [] -> Forall plain_line (tape_lines t) ->
  Forall (fun f => plain_end (co_accept co) (f_fend f)) (m_files m) ->
  plain_end (co_accept co) (m_mend m) -> plain_end (co_accept co) (t_tend t) ->
  NoDup (map (fun ms => (fst ms, s_mt (snd ms))) (sections m)) ->
  has_recipe (p_recipes p) 0 0 = true ->
  (forall mf s, In (mf, s) (sections m) -> has_recipe (p_recipes p) mf (s_mt s) = true) ->
  (cr_validate o = true -> selected exc inc 0 0 /\ forall mf s, In (mf, s) (sections m) -> selected exc inc mf (s_mt s)) ->
  (selected exc inc 0 0 -> covered_head (p_recipes p)) ->
  (forall mf s, In (mf, s) (sections m) -> selected exc inc mf (s_mt s) -> covered_section co (p_recipes p) mf s) ->
  parse p false exc inc po (map with_break (tape_lines t)) = (Ok d, po') ->
  compiled_parse co o (p_recipes p) other exc inc (tape_lines t) = Val d' ->
  same_dictionary same_data d d'.
Proof.
  intros p co o other exc inc po t m d po' d' SR AC Ww St T Em Er PL PF PM PT ND H0 H V NS CS PY CP.
  pose proof SR as (W & RS & _). rewrite <- RS in AC, PF, PM, PT.
  apply (tape_relation same_data (parse_one p) (compiled_module co (p_recipes p) other) (has_recipe (p_recipes p)) (p_ro p) (p_wo p) o exc inc W Ww po t m d po' d'); auto.
  - intros S. destruct (NS S) as (b & FB & CV & NA). intros q q' dd send mat rest e left El PR CR. unfold parse_one in PR. rewrite FB in PR. unfold compiled_module in CR. rewrite FB in CR.
    destruct (compile_vars b) eqn:CVb. { exfalso. clear -CV CVb. destruct b as [|[] [|]]; try (now elim CV); discriminate CVb. }
    destruct (compile_text b) eqn:CTb; [|now elim CV]. cbn [app] in CR.
    destruct (compiled_text co b (t_head t :: rest)) as [[[e' l'] notes]| |] eqn:C; try discriminate CR. cbn [cbind] in CR. injection CR as <- <-. rewrite <- CTb in CV.
    unfold tape_lines in PL. inversion PL as [|? ? PH _]; subst.
    exact (C61_tape_head_same co (p_ro p) (p_wo p) (p_depth p) b (t_head t) rest send q dd q' e' l' notes CV NA SR PH PR C).
  - intros mf s I S. destruct (CS mf s I S) as (b & FB & CV & NA & RN).
    pose proof (ProofCppFile.section_plain t m mf s Em I PL) as NL.
    intros q q' dd send mat rest e left El PR CR. unfold parse_one in PR. rewrite FB in PR. unfold compiled_module in CR. rewrite FB in CR.
    destruct (compile_vars b) eqn:CVb; [|now elim CV].
    destruct (compiled_run co b (s_body s ++ [s_send s] ++ rest)) as [[[e' l'] notes]| |] eqn:C; try discriminate CR. cbn [cbind] in CR. injection CR as <- <-.
    rewrite <- CVb in CV.
    destruct (recipe_both (s_body s) ([s_send s] ++ rest) send co (p_ro p) (p_wo p) (p_depth p) SR NL b q dd q' e' l' notes) as [A B]; auto.
    { exact (RN _ _ _ _ C). }
    split; [exact A|]. apply B. apply columns_not_zero; auto.
    destruct (ProofCppRead.sections_fine (p_ro p) t m mf s W T Em) as (_ & (Nt & _ & Cb & _) & _); auto.
    { eapply Forall_impl; [|exact PL]. intros l X. apply X. }
    eapply Forall_impl; [|exact Cb]. intros l X. exists (m_mat m), mf, (s_mt s). rewrite W in X. auto.
Qed.
Print Assumptions C61_whole_files_same.

(** ** A case: the tape head, MF 1/MT 451, MF 3 and MF 10 *)

Definition ex_secs3 : tsection :=
  {| s_mt := 1; s_send := ex_line [] 125 3 0;
     s_body := map (fun t => ex_line t 125 3 1)
       [$" 1.001000+3 9.991673-1          0          0          0          0";
        $" 0.0        0.0                 0          0          1          3";
        $"          3          2"; $" 1.000000-5 1.0        2.0000+7   3.0        3.0+7      4.5-1"] |}.
Definition ex_secs10 : tsection := {| s_mt := 16; s_body := ex_body; s_send := ex_send |}.
Definition ex_secs1 : tsection :=
  {| s_mt := 451; s_body := ex_body451; s_send := ex_line [] 125 1 0 |}.
Definition ex_mat : tmaterial :=
  {| m_mat := 125; m_mend := ex_line [] 0 0 0;
     m_files := [ {| f_mf := 1; f_secs := [ex_secs1]; f_fend := ex_line [] 125 0 0 |};
                  {| f_mf := 3; f_secs := [ex_secs3]; f_fend := ex_line [] 125 0 0 |};
                  {| f_mf := 10; f_secs := [ex_secs10]; f_fend := ex_line [] 125 0 0 |} ] |}.
Definition ex_file : tape :=
  {| t_head := ex_line $"a tape" 1 0 0; t_mats := [ex_mat]; t_tend := ex_line [] (-1) 0 0; t_rest := [] |}.
Definition endf6 : recipes := match get_recipe_dict $"endf6" with Ok r => r | Err _ => [] end.
Definition ex_parser : parser :=
  {| p_ro := default_ro; p_wo := default_wo; p_depth := 100; p_recipes := endf6; p_explain := false |}.
Lemma taken_over a rest : taken rest (a ++ rest) = a.
Proof. unfold taken. rewrite app_length. replace (length a + length rest - length rest)%nat with (length a) by lia. rewrite firstn_app, firstn_all, Nat.sub_diag. cbn [firstn]. apply app_nil_r. Qed.
Definition taken_one a rest : taken rest (a :: rest) = [a] := taken_over [a] rest.
Definition taken_two a b rest : taken rest (a :: b :: rest) = [a; b] := taken_over [a; b] rest.
Definition ex_other (b : block) (lines : list str) : cpp (dict * list str) := Undefined.
Definition is_ok {A B} (x : result A * B) : bool := match fst x with Ok _ => true | Err _ => false end.
Definition is_val {A} (x : cpp A) : bool := match x with Val _ => true | _ => false end.

Example C61_whole_files_case :
  same_reading (ex_co true) default_ro /\ strict default_ro /\ tape_ok default_ro ex_file /\ Forall plain_line (tape_lines ex_file) /\
  Forall (fun f => plain_end (r_spaces default_ro) (f_fend f)) (m_files ex_mat) /\
  plain_end (r_spaces default_ro) (m_mend ex_mat) /\ plain_end (r_spaces default_ro) (t_tend ex_file) /\
  NoDup (map (fun ms => (fst ms, s_mt (snd ms))) (sections ex_mat)) /\
  has_recipe endf6 0 0 = true /\ (forall mf s, In (mf, s) (sections ex_mat) -> has_recipe endf6 mf (s_mt s) = true) /\
  (forall mf mt, selected None None mf mt) /\ covered_head endf6 /\
  (forall mf s, In (mf, s) (sections ex_mat) -> selected None None mf (s_mt s) -> covered_section (ex_co true) endf6 mf s) /\
  is_ok (parse ex_parser false None None ex_po (map with_break (tape_lines ex_file))) = true /\
  is_val (compiled_parse (ex_co true) (ProofCppReadEx.ex_co true false) endf6 ex_other None None (tape_lines ex_file)) = true.
Proof.
  split; [repeat split|]. split; [repeat split|]. split.
  { split; [intros X; apply blank_iff in X; revert X; vm_compute; discriminate|]. split; [exists 1; apply carries_iff; vm_compute; reflexivity|].
    split; [|split; [apply end_record_by; vm_compute; reflexivity|apply Forall_nil]]. apply Forall_cons; [|apply Forall_nil].
    split; [discriminate|]. split; [discriminate|]. split; [|apply end_record_by; vm_compute; reflexivity].
    cbn [m_files m_mat ex_mat]. lines; (split; [discriminate|]; split; [discriminate|]; split; [|apply end_record_by; vm_compute; reflexivity]);
      cbn [f_secs f_mf]; lines; (apply ex_sec; [discriminate|discriminate|vm_compute; reflexivity|vm_compute; reflexivity]). }
  split; [apply plain_lines_by; vm_compute; reflexivity|].
  split; [unfold ex_mat; cbn [m_files]; lines; cbn [f_fend]; apply plain_end_by; vm_compute; reflexivity|].
  split; [apply plain_end_by; vm_compute; reflexivity|]. split; [apply plain_end_by; vm_compute; reflexivity|].
  split.
  { change (NoDup [(1, 451); (3, 1); (10, 16)]). repeat constructor; cbn [In]; intros H; repeat (destruct H as [H|H]; [discriminate H|]); exact H. }
  assert (IN : forall mf s, In (mf, s) (sections ex_mat) -> (mf, s) = (1, ex_secs1) \/ (mf, s) = (3, ex_secs3) \/ (mf, s) = (10, ex_secs10)).
  { unfold sections, ex_mat. cbn [m_files map f_secs f_mf concat app In]. intros mf s [H|[H|[H|[]]]]; auto. }
  split; [vm_compute; reflexivity|]. split; [intros mf s I; apply IN in I as [E|[E|E]]; inversion E; vm_compute; reflexivity|].
  split; [intros mf mt; apply selected_iff; reflexivity|]. split; [exists mf0_mt0_tapehead; destruct head_ok as [A B]; split; [vm_compute; reflexivity|auto]|].
  split; [|split; vm_compute; reflexivity].
  intros mf s I S. apply IN in I as [E|[E|E]]; inversion E; subst; clear E.
  - exists (with_send mf1_mt451). destruct (covered_ok (with_send mf1_mt451)) as [A B]; [cbn; tauto|]. split; [vm_compute; reflexivity|]. split; [exact A|]. split; [exact B|].
    intros rest d left notes R. cbv -[taken] in R. injection R as _ _ <-. rewrite ?taken_two, ?taken_one. apply notes_by. vm_compute. reflexivity.
  - exists (with_send mf3). destruct (covered_ok (with_send mf3)) as [A B]; [cbn; tauto|]. split; [vm_compute; reflexivity|]. split; [exact A|]. split; [exact B|].
    intros rest d left notes R. cbv -[taken] in R. injection R as _ _ <-. rewrite ?taken_two, ?taken_one. apply notes_by. vm_compute. reflexivity.
  - exists (with_send mf10). destruct (covered_ok (with_send mf10)) as [A B]; [cbn; tauto|]. split; [vm_compute; reflexivity|]. split; [exact A|]. split; [exact B|].
    intros rest d left notes R. cbv -[taken] in R. injection R as _ _ <-. rewrite ?taken_two, ?taken_one. apply notes_by. vm_compute. reflexivity.
Qed.
