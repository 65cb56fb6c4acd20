(** Theorems about the library of a file: C63. *)
From Coq Require Import Ascii String ZArith Bool Lia List.
From Coq Require Import Floats.SpecFloat.
From Verif Require Import PyBase PyFloat ModelFortran ModelRecords ModelTape.
From Verif Require Import ModelRecipe ModelNum ModelInterp ModelRecipes ModelRegistry ModelParser ModelPath ModelTools ModelLibrary.
From Verif Require Import SpecTape SpecLibm SpecInterp SpecPath SpecTools SpecLibrary SpecInterpEx.
From Verif Require Import ProofDesc ProofLibrary ThmFile ThmDir.
Import ListNotations.
Open Scope Z_scope.

(** A known library is set in NLIB, NVER and LREL and in the first 22 columns of the third line
    of the description; nothing else changes and a line of 22 columns or more keeps its length. *)
Theorem C63_set : forall lib m l s, known_library lib -> describes m l -> nth_error l 2 = Some s -> third_line s ->
  exists m' s' l', set_library lib m = (Ok tt, m') /\ numbers_of lib m' /\ renamed lib s s' /\ replaced 2 s' l l' /\ describes m' l' /\
    forall k, ~ In k (KStr $"DESCRIPTION" :: library_keys) -> dget k m' = dget k m.
Proof. exact set_library_lines. Qed.
Print Assumptions C63_set.
Theorem C63_width : forall lib s s', renamed lib s s' -> length s' = Nat.max 22 (length s).
Proof. exact renamed_length. Qed.
Print Assumptions C63_width.

(** Otherwise an exception is raised and at most the three numbers have changed; with an unknown
    library nothing has. *)
Theorem C63_refused : forall lib m l, describes m l ->
  (known_library lib -> forall s, nth_error l 2 = Some s -> ~ third_line s) ->
  exists e m', set_library lib m = (Err e, m') /\ describes m' l /\ (forall k, ~ In k library_keys -> dget k m' = dget k m) /\
    (~ known_library lib -> m' = m).
Proof. exact set_library_refused. Qed.
Print Assumptions C63_refused.

(** The library set last counts. *)
Theorem C63_last : forall lib1 lib2 m l s, known_library lib1 -> known_library lib2 ->
  describes m l -> nth_error l 2 = Some s -> third_line s ->
  exists m1 m12 m2, set_library lib1 m = (Ok tt, m1) /\ set_library lib2 m1 = (Ok tt, m12) /\ set_library lib2 m = (Ok tt, m2) /\
    forall k, dget k m12 = dget k m2.
Proof. exact set_library_twice. Qed.
Print Assumptions C63_last.

(** The case of a PENDF file, where all lines of text are in the description. *)
Definition ex63_text : str := $" 26-FE- 56 LANL       EVAL-OCT05" ++ lf :: $" CH99,1               DIST-DEC06" ++ lf :: $"----ENDF/B-VII.1      MATERIAL 2631".
Definition ex63 : dict := set_description ex63_text [(KStr $"NLIB", vint 0); (KStr $"NVER", vint 7); (KStr $"LREL", vint 1)].
Example C63_case : exists l s, known_library $"FENDL-3.2" /\ ~ known_library $"JEFF-3.3" /\ describes ex63 l /\ nth_error l 2 = Some s /\ third_line s /\ length s = 66%nat /\
  fst (set_library $"FENDL-3.2" ex63) = Ok tt /\ numbers_of $"FENDL-3.2" (snd (set_library $"FENDL-3.2" ex63)) /\
  describes (snd (set_library $"FENDL-3.2" ex63)) (firstn 2 l ++ [ljust 66 $"----FENDL-3.2         MATERIAL 2631"]).
Proof.
  assert (D := set_describes ex63_text [(KStr $"NLIB", vint 0); (KStr $"NVER", vint 7); (KStr $"LREL", vint 1)]). fold ex63 in D.
  assert (T : third_line (ljust 66 $"----ENDF/B-VII.1      MATERIAL 2631")) by (apply signature_spec; reflexivity).
  eexists. exists (ljust 66 $"----ENDF/B-VII.1      MATERIAL 2631"). split; [cbn; tauto|]. split; [cbn; intros X; repeat (destruct X as [X|X]; [discriminate X|]); exact X|].
  split; [exact D|]. split; [reflexivity|]. split; [exact T|]. split; [reflexivity|].
  destruct (set_library_lines $"FENDL-3.2" ex63 _ _ ltac:(cbn; tauto) D eq_refl T) as (m' & s' & l' & E & Nu & R & Rl & D' & _). rewrite E. cbn [fst snd].
  split; [reflexivity|]. split; [exact Nu|]. apply renamed_ljust in R. apply replaced_cut in Rl. rewrite Rl, R in D'. exact D'.
Qed.

(** In a file read with the recipes of ENDF-6 the first five lines of text are not in the
    description. The third line of text names the library, as the manual of the format has it, but an exception
    is raised; by then the numbers have been changed. *)
Definition ex63_file : dict := ex43_451 8 [txt 66 "----ENDF/B-VIII.0     MATERIAL  125"; txt 66 "-----INCIDENT NEUTRON DATA"; txt 66 "------ENDF-6 FORMAT"]
  [txt 66 "three lines"; txt 66 "of"; txt 66 "text"].
Theorem C63_files_refuted : exists p o lines d l e d' z z',
  p_recipes p = match get_recipe_dict $"endf6" with Ok rs => rs | Err _ => [] end /\
  fst (parse_one p o 1 451 lines) = Ok d /\ (exists s, nth_error lines 6 = Some s /\ third_line s) /\
  describes d l /\ (3 <= length l)%nat /\ set_library $"FENDL-3.2" d = (Err e, d') /\ has_number d $"NLIB" z /\ has_number d' $"NLIB" z' /\ z <> z'.
Proof.
  exists ex56_parser, strict_opts.
  exists (match write_one ex56_parser true strict_opts 1 451 ex63_file with Ok (ls, _) => ls | Err _ => [] end).
  eexists. exists [ljust 66 $"three lines"; ljust 66 $"of"; ljust 66 $"text"]. do 2 eexists. exists 0, 33.
  split; [reflexivity|]. split; [vm_compute; reflexivity|]. split; [eexists; split; [vm_compute; reflexivity|apply signature_spec; vm_compute; reflexivity]|].
  split.
  { eexists. split; [vm_compute; reflexivity|]. split; [unfold unique_keys; cbn; repeat constructor; cbn; intros X; repeat (destruct X as [X|X]; [discriminate X|]); exact X|].
    intros k v. split.
    - intros I. repeat (destruct I as [I|I]; [injection I as <- <-|]); [exists 0%nat|exists 1%nat|exists 2%nat|destruct I]; eexists; split; try reflexivity; split; reflexivity.
    - intros ([|[|[|i]]] & s & G & -> & ->); cbn [nth_error] in G; try (destruct i; discriminate G); injection G as <-; cbn [In]; tauto. }
  split; [cbn; lia|]. split; [vm_compute; reflexivity|]. split; [reflexivity|]. split; [reflexivity|discriminate].
Qed.
Print Assumptions C63_files_refuted.
