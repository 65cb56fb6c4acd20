(** C66: the options of the command line and the commands show and replace. *)
From Coq Require Import Ascii String ZArith Bool Lia List.
From Verif Require Import PyBase PyFloat ModelFortran ModelRecords ModelNum ModelRecipe ModelInterp ModelParser ModelPath ModelCppParser ModelCli.
From Verif Require Import ModelTape SpecInterp SpecPath SpecFields SpecLibm SpecTape SpecTapeEx SpecInterpEx SpecCli.
From Verif Require Import ProofCli.
Import ListNotations.
Open Scope Z_scope.

(** A parser is always found, and its options are those of the command line. *)
Theorem C66_options : forall loads no_cpp args insist,
  exists b, get_endf_parser loads no_cpp args insist = Some b /\
  match b with
  | UsePython a => as_asked py_signature a args insist
  | UseCpp a => no_cpp = false /\ asked args insist $"fuzzy_matching" = None /\ loads a = true /\ as_asked cpp_signature a args insist
  end.
Proof. exact parser_chosen. Qed.
Print Assumptions C66_options.
(** The compiled parser is used if it is there, unless --no-cpp or --fuzzy_matching is given. *)
Theorem C66_backend : forall loads args insist, asked args insist $"fuzzy_matching" = None -> (forall a, loads a = true) ->
  exists a, get_endf_parser loads false args insist = Some (UseCpp a).
Proof. exact cpp_chosen. Qed.
Print Assumptions C66_backend.
(** --fuzzy_matching switches to the Python parser although the option is listed as one of the compiled parser. *)
Theorem C66_fuzzy_refuted : exists args a, In ($"fuzzy_matching", true) cli_options /\
  get_endf_parser (fun _ => true) false args [] = Some (UsePython a).
Proof. exists [($"fuzzy_matching", OBool true)]. eexists. split; [cbn; tauto|]. vm_compute. reflexivity. Qed.
Print Assumptions C66_fuzzy_refuted.

(** replace insists on tolerating missing end records and tape heads, compares with zeros in the recipe unless told
    otherwise, and keeps the texts of numbers if something inside of a section is replaced. *)
Theorem C66_replace_options : forall loads no_cpp args path b, get_endf_parser loads no_cpp args (replace_override args path) = Some b ->
  let a := match b with UsePython a => a | UseCpp a => a end in
  arg $"ignore_send_records" a = OBool true /\ arg $"ignore_missing_tpid" a = OBool true /\
  arg $"ignore_zero_mismatch" a = match given (oget $"ignore_zero_mismatch" args) with Some v => v | None => OBool false end /\
  ((2 < length path)%nat -> arg $"preserve_value_strings" a = OBool true).
Proof.
  intros loads no_cpp args path b H. destruct (parser_chosen loads no_cpp args (replace_override args path)) as (b' & E & A).
  rewrite H in E. injection E as <-.
  assert (X : forall sig a, as_asked sig a args (replace_override args path) ->
    (forall n, In n [$"ignore_send_records"; $"ignore_missing_tpid"; $"ignore_zero_mismatch"; $"preserve_value_strings"] -> oget n sig <> None) ->
    arg $"ignore_send_records" a = OBool true /\ arg $"ignore_missing_tpid" a = OBool true /\
    arg $"ignore_zero_mismatch" a = match given (oget $"ignore_zero_mismatch" args) with Some v => v | None => OBool false end /\
    ((2 < length path)%nat -> arg $"preserve_value_strings" a = OBool true)).
  { intros sig a S N.
    assert (V : forall n, In n [$"ignore_send_records"; $"ignore_missing_tpid"; $"ignore_zero_mismatch"; $"preserve_value_strings"] ->
      In n cli_names -> forall v, asked args (replace_override args path) n = Some v -> arg n a = v).
    { intros n I J v Q. specialize (N n I). destruct (oget n sig) as [d|] eqn:G; [|contradiction]. rewrite (proj1 (S n d G) J). now rewrite Q. }
    split; [|split; [|split]].
    - apply V; [cbn; tauto|cbn; tauto|reflexivity].
    - apply V; [cbn; tauto|cbn; tauto|reflexivity].
    - apply V; [cbn; tauto|cbn; tauto|]. unfold asked, replace_override. cbn [app oget].
      change (str_eqb $"ignore_zero_mismatch" $"ignore_zero_mismatch") with true. cbn iota.
      destruct (oget $"ignore_zero_mismatch" args) as [[]|]; reflexivity.
    - intros L. apply V; [cbn; tauto|cbn; tauto|]. unfold asked, replace_override. destruct (Nat.leb_spec (length path) 2); [lia|]. reflexivity. }
  destruct b as [a|a]; cbn zeta.
  - apply (X py_signature); [exact A|]. intros n [<-|[<-|[<-|[<-|[]]]]]; discriminate.
  - apply (X cpp_signature); [apply A|]. intros n [<-|[<-|[<-|[<-|[]]]]]; discriminate.
Qed.
Print Assumptions C66_replace_options.

(** show finds what the dictionary of the whole file has at the path, although it parses one section or one MF number only. *)
Theorem C66_show : forall p o path lines d o', (exists mf mt, leads_to path mf mt) -> parse p false None None o lines = (Ok d, o') ->
  show p o path lines = path_lookup path (as_object d).
Proof. exact show_same. Qed.
Print Assumptions C66_show.
(** With an empty path nothing is parsed and only lines are shown. *)
Theorem C66_show_everything_refuted : exists lines d v w, parse ex_look_parser false None None strict_opts lines = (Ok d, strict_opts) /\
  path_lookup [] (as_object d) = Ok v /\ show ex_look_parser strict_opts [] lines = Ok w /\ v <> w.
Proof.
  exists (ex_tape_of [(1, ex_good)]).
  destruct (parse ex_look_parser false None None strict_opts (ex_tape_of [(1, ex_good)])) as [[d|] o'] eqn:E; [|vm_compute in E; discriminate].
  destruct (show ex_look_parser strict_opts [] (ex_tape_of [(1, ex_good)])) as [w|] eqn:F; [|vm_compute in F; discriminate].
  exists d, (as_object d), w. vm_compute in E. injection E as <- <-. vm_compute in F. injection F as <-. repeat split. vm_compute. discriminate.
Qed.
Print Assumptions C66_show_everything_refuted.

(** What replace writes: the object of the source file at the path; everything else is that of the destination. A section is
    parsed only if the path leads into it. *)
Theorem C66_replace_path : forall p o path source dest d, path <> [] -> replaced_dict p o path source dest = Ok d ->
  exists inc src dst obj,
    ((length path <= 2)%nat -> inc = []) /\ (forall mf mt r, path = KInt mf :: KInt mt :: r -> r <> [] -> inc = [SMfMt mf mt]) /\
    parse p false None (Some inc) o source = (Ok src, o) /\ parse p false None (Some inc) o dest = (Ok dst, o) /\
    path_lookup path (as_object src) = Ok obj /\ path_lookup path (as_object d) = Ok obj /\
    forall q w, unrelated path q -> path_lookup q (as_object d) = Ok w <-> path_lookup q (as_object dst) = Ok w.
Proof.
  intros p o path source dest d N H. destruct (replaced_path p o path source dest d N H) as (inc & src & dst & obj & I & R).
  exists inc, src, dst, obj. split; [|split; [|exact R]]; unfold included in I.
  - intros L. apply Nat.leb_le in L. rewrite L in I. now injection I as <-.
  - intros mf mt [|k r] -> K; [contradiction|]. cbn in I. now injection I as <-.
Qed.
Print Assumptions C66_replace_path.
(** All sections but the one of the path keep their lines, and no section is added. *)
Theorem C66_replace_rest : forall p o path source dest d s mf mt, (exists a b r, path = KInt a :: KInt b :: r) -> ~ leads_to path mf mt ->
  replaced_dict p o path source dest = Ok d -> split_sections (p_ro p) dest = Ok s ->
  forall w, path_lookup [KInt mf; KInt mt] (as_object d) = Ok w <-> exists ls, w = VList (map VStr ls) /\ holds s mf mt ls.
Proof. exact replaced_rest. Qed.
Print Assumptions C66_replace_rest.
(** A whole section: if both files are of the same material, the new file can be read; it has the section of the source
    file and all other sections of the destination, up to the line numbers. *)
Theorem C66_replace_section : forall p o mf mt source dest s1 s2 mat ls ro,
  field_width (p_wo p) -> r_width (p_ro p) = w_width (p_wo p) -> split_sections (p_ro p) source = Ok s1 -> split_sections (p_ro p) dest = Ok s2 ->
  verbatim (w_width (p_wo p)) mat s1 -> verbatim (w_width (p_wo p)) mat s2 -> holds s1 mf mt ls -> strict ro -> r_width ro = w_width (p_wo p) ->
  exists lines d, replace_object p o [KInt mf; KInt mt] source dest = Ok lines /\ split_sections ro lines = Ok d /\ is_dict2 d /\
    (exists ls', holds d mf mt ls' /\ Forall2 (same_columns (w_width (p_wo p))) ls ls') /\
    (forall a b x, (a, b) <> (mf, mt) -> holds s2 a b x -> exists x', holds d a b x' /\ Forall2 (same_columns (w_width (p_wo p))) x x') /\
    (forall a b x', (a, b) <> (mf, mt) -> holds d a b x' -> exists x, holds s2 a b x /\ Forall2 (same_columns (w_width (p_wo p))) x x').
Proof. exact replaced_section. Qed.
Print Assumptions C66_replace_section.

(** ** Examples *)
Definition tape_of (mat : Z) : list str :=
  match write_tape ex_recipe default_ro default_wo false None None
    (raw_dict [(0, [(0, [ex_head])]); (3, [(2, [ex_line $" old section" mat 3 2])]); (4, [(2, [ex_line $" to be kept" mat 4 2])])]) with
  | Ok l => l | Err _ => [] end.
Definition got {A} (d : A) (r : result A) : A := match r with Ok x => x | Err _ => d end.
Definition p0 : parser := ex_parser [(3, RByMt [(1, then_send ex_body)])].
Example C66_case :
  let s1 := got [] (split_sections default_ro ex_tape) in let s2 := got [] (split_sections default_ro (tape_of 125)) in
  field_width (p_wo p0) /\ strict default_ro /\ split_sections default_ro ex_tape = Ok s1 /\ split_sections default_ro (tape_of 125) = Ok s2 /\
  verbatim 11 125 s1 /\ verbatim 11 125 s2 /\ (exists ls, holds s1 3 1 ls) /\
  (exists a, get_endf_parser (fun _ => true) false [($"ignore_blank_lines", OBool true); ($"loglevel", OInt 10); ($"array_type", ONone)] [] = Some (UseCpp a) /\
     arg $"ignore_blank_lines" a = OBool true /\ arg $"array_type" a = OStr $"dict") /\
  (exists lines s d v, lines = ex_tape_of [(1, ex_slines)] /\ split_sections default_ro lines = Ok s /\
     replaced_dict p0 strict_opts [KInt 3; KInt 1; KStr $"sub"; KStr $"Q"] lines lines = Ok d /\
     show p0 strict_opts [KInt 3; KInt 1; KStr $"sub"; KStr $"Q"] lines = Ok v).
Proof.
  cbn zeta. split; [unfold field_width; cbn; lia|]. split; [repeat split|]. split; [vm_compute; reflexivity|]. split; [vm_compute; reflexivity|].
  split; [apply (verbatim_check_ok default_ro 125 1); vm_compute; reflexivity|]. split; [apply (verbatim_check_ok default_ro 125 1); vm_compute; reflexivity|].
  split. { eexists. eexists. split; [vm_compute; right; left; reflexivity|left; reflexivity]. }
  split. { eexists. split; [vm_compute; reflexivity|]. split; reflexivity. }
  exists (ex_tape_of [(1, ex_slines)]). eexists. eexists. eexists. split; [reflexivity|]. split; [vm_compute; reflexivity|]. split; vm_compute; reflexivity.
Qed.

(** A section of another material is inserted without a message, and the new file is not accepted by the parser. *)
Theorem C66_other_material_refuted : exists source dest s1 s2 lines e, split_sections default_ro source = Ok s1 /\ split_sections default_ro dest = Ok s2 /\
  verbatim 11 125 s1 /\ verbatim 11 200 s2 /\ replace_object p0 strict_opts [KInt 3; KInt 1] source dest = Ok lines /\
  split_sections default_ro lines = Err e.
Proof.
  exists ex_tape, (tape_of 200), (got [] (split_sections default_ro ex_tape)), (got [] (split_sections default_ro (tape_of 200))),
    (got [] (replace_object p0 strict_opts [KInt 3; KInt 1] ex_tape (tape_of 200))). eexists.
  split; [vm_compute; reflexivity|]. split; [vm_compute; reflexivity|].
  split; [apply (verbatim_check_ok default_ro 125 1); vm_compute; reflexivity|]. split; [apply (verbatim_check_ok default_ro 200 1); vm_compute; reflexivity|].
  split; [vm_compute; reflexivity|]. vm_compute. reflexivity.
Qed.
Print Assumptions C66_other_material_refuted.
