(** C57: abbreviations of recipes. *)
From Coq Require Import Ascii String ZArith Bool Lia List.
From Coq Require Import Floats.SpecFloat.
From Verif Require Import PyBase PyFloat ModelFortran ModelRecords ModelTape ModelNum ModelRecipe ModelInterp ModelRecipes ModelRegistry.
From Verif Require Import SpecFields SpecLibm SpecInterp SpecInterpEx SpecRound SpecAbbrev ProofAbbrev5.
Import ListNotations.
Open Scope Z_scope.

(** ** C57 *)
(** Reading with a recipe is reading with the recipe in which every name of an abbreviation is
    replaced by its expression, unless a name is used for a variable as well: then the
    exception for that may be raised. *)
Theorem C57_reading : forall en b b' o lines, e_depth en <> O -> unfolded b = Some b' ->
  parse_recipe en b o lines = parse_recipe en b' o lines \/
  fst (parse_recipe en b o lines) = Err AbbreviationNameCollisionError.
Proof. exact unfolded_parse. Qed.
Print Assumptions C57_reading.

(** If no name of an abbreviation is used for a variable, the result is always the same,
    exceptions included. *)
Theorem C57_reading_strict : forall en b b' o lines, e_depth en <> O -> unfolded_strictly b = Some b' ->
  parse_recipe en b o lines = parse_recipe en b' o lines.
Proof. exact strictly_parse. Qed.
Print Assumptions C57_reading_strict.

(** The same lines are written, and the dictionary is left the same. *)
Theorem C57_writing : forall en explain b b' o mf mt d, e_depth en <> O -> unfolded b = Some b' -> data [] (VDict d) ->
  let w := write_recipe en explain b o mf mt d in
  let w' := write_recipe en explain b' o mf mt d in
  fst w = fst w' /\ ((exists r, fst w' = Ok r) -> snd w = snd w') \/ fst w = Err AbbreviationNameCollisionError.
Proof. exact unfolded_write. Qed.
Print Assumptions C57_writing.

(** No exception for a dictionary that has no entry with the name of an abbreviation. *)
Theorem C57_writing_strict : forall en explain b b' o mf mt d, e_depth en <> O -> unfolded_strictly b = Some b' ->
  data (abbrs_block b) (VDict d) ->
  let w := write_recipe en explain b o mf mt d in
  let w' := write_recipe en explain b' o mf mt d in
  fst w = fst w' /\ ((exists r, fst w' = Ok r) -> snd w = snd w').
Proof. exact strictly_write. Qed.
Print Assumptions C57_writing_strict.

(** The other recipe has no abbreviations at all. *)
Theorem C57_no_abbreviations : forall b b', unfolded b = Some b' -> abbrs_block b' = [].
Proof. exact unfolded_none. Qed.
Print Assumptions C57_no_abbreviations.

(** The recipes of the package: all but one can be replaced in this way, and in four of the
    seven that have abbreviations the names are used for nothing else. *)
Theorem C57_recipes : forall name b, In (name, b) all_recipes ->
  (exists b', unfolded (with_send b) = Some b') \/ name = $"mf32".
Proof.
  assert (G : forallb (fun nb => match unfolded (with_send (snd nb)) with Some _ => true | None => str_eqb (fst nb) $"mf32" end) all_recipes = true)
    by (vm_compute; reflexivity).
  intros name b H. rewrite forallb_forall in G. specialize (G _ H). cbn [fst snd] in G.
  destruct (unfolded (with_send b)) as [b'|]; [left; now exists b'|right; now apply ProofPyBase.str_eqb_eq].
Qed.
Print Assumptions C57_recipes.
Theorem C57_recipes_strict : forall b, In b [mf31_mt452_455_456; mf33; pendf_mf2_mt152; pendf_mf2_mt153] ->
  abbrs_block b <> [] /\ exists b', unfolded_strictly (with_send b) = Some b'.
Proof.
  intros b [<-|[<-|[<-|[<-|[]]]]]; (split; [discriminate|]);
    match goal with |- exists b', ?u = Some b' => destruct u as [b'|] eqn:E; [now exists b'|vm_compute in E; discriminate E] end.
Qed.
Print Assumptions C57_recipes_strict.

(** MF=2, MT=153 with one energy and one bin; NW stands for (1 + 6 * NBIN) * NUNR *)
Definition ex57 (more : dict) : dict :=
  let i z := vint z in
  let f s := match fortstr2float false false None s with Ok x => VNum x | Err _ => VNone end in
  let a s := VDict [(KInt 1, VDict [(KInt 1, f s)])] in
  [(KStr $"MAT", i 125); (KStr $"MF", i 2); (KStr $"MT", i 153); (KStr $"ZA", f $"1001.0"); (KStr $"AWR", f $"0.99917");
   (KStr $"IINEL", i 4); (KStr $"IABSO", i 0); (KStr $"INTUNR", i 2); (KStr $"NBIN", i 1); (KStr $"TEMZ", f $"300.0");
   (KStr $"LSSF", i 0); (KStr $"NUNR", i 1); (KStr $"EUNR", VDict [(KInt 1, f $"1.0")]); (KStr $"PROB", a $"1.0");
   (KStr $"TOTL", a $"2.0"); (KStr $"ELAS", a $"3.0"); (KStr $"FISS", a $"4.0"); (KStr $"CAPT", a $"5.0"); (KStr $"HEAT", a $"6.0")] ++ more.
Example C57_example : exists b' lines c d r,
  unfolded_strictly (with_send pendf_mf2_mt153) = Some b' /\ data (abbrs_block (with_send pendf_mf2_mt153)) (VDict (ex57 [])) /\
  write_recipe ex_wenv true (with_send pendf_mf2_mt153) strict_opts 2 153 (ex57 []) = (Ok (lines, c), d) /\
  write_recipe ex_wenv true b' strict_opts 2 153 (ex57 []) = (Ok (lines, c), d) /\
  parse_recipe ex_renv (with_send pendf_mf2_mt153) strict_opts lines = (Ok r, strict_opts) /\ dget (KStr $"NW") r = None /\
  length lines = 5%nat /\ e_depth ex_renv <> O.
Proof.
  destruct (unfolded_strictly (with_send pendf_mf2_mt153)) as [b'|] eqn:U; [|vm_compute in U; discriminate U].
  destruct (write_recipe ex_wenv true (with_send pendf_mf2_mt153) strict_opts 2 153 (ex57 [])) as [[[lines c]|e] d] eqn:W; [|vm_compute in W; discriminate W].
  assert (D : data (abbrs_block (with_send pendf_mf2_mt153)) (VDict (ex57 []))).
  { constructor. vm_compute ex57. repeat (apply Forall_cons || apply Forall_nil); (split; [intros x E; injection E as <-; vm_compute; intros [X|[]]; discriminate X|]);
      cbn [snd]; repeat (constructor; cbn [fst snd]; try (intros x X; discriminate X)). }
  destruct (parse_recipe ex_renv (with_send pendf_mf2_mt153) strict_opts lines) as [[r|e] o] eqn:P.
  2:{ vm_compute in W. injection W as <- <- <-. vm_compute in P. discriminate P. }
  exists b', lines, c, d, r. split; [reflexivity|]. split; [exact D|]. split; [reflexivity|].
  assert (N : e_depth ex_wenv <> O) by discriminate.
  pose proof (C57_writing_strict ex_wenv true _ b' strict_opts 2 153 (ex57 []) N U D) as H. cbv zeta in H. rewrite W in H. cbn [fst snd] in H.
  destruct H as [H1 H2]. split.
  - destruct (write_recipe ex_wenv true b' strict_opts 2 153 (ex57 [])) as [w' d'']. cbn [fst snd] in *. subst w'. rewrite H2; [reflexivity|now exists (lines, c)].
  - vm_compute in W. injection W as <- <- <-. vm_compute in P. injection P as <- <-. split; [reflexivity|]. split; [reflexivity|]. split; [reflexivity|discriminate].
Qed.

(** An entry that no record of the recipe has, with the name of an abbreviation, makes writing
    fail: not all entries without a place in the recipe are ignored. *)
Theorem C57_extra_entry_refuted : exists b' r,
  unfolded (with_send pendf_mf2_mt153) = Some b' /\
  fst (write_recipe ex_wenv true b' strict_opts 2 153 (ex57 [(KStr $"NW", vint 7)])) = Ok r /\
  fst (write_recipe ex_wenv true (with_send pendf_mf2_mt153) strict_opts 2 153 (ex57 [(KStr $"NW", vint 7)])) = Err AbbreviationNameCollisionError.
Proof.
  destruct (unfolded (with_send pendf_mf2_mt153)) as [b'|] eqn:U; [|vm_compute in U; discriminate U].
  destruct (fst (write_recipe ex_wenv true b' strict_opts 2 153 (ex57 [(KStr $"NW", vint 7)]))) as [r|e] eqn:W.
  - exists b', r. split; [reflexivity|]. split; [exact W|]. vm_compute. reflexivity.
  - vm_compute in U. injection U as <-. vm_compute in W. discriminate W.
Qed.
Print Assumptions C57_extra_entry_refuted.
