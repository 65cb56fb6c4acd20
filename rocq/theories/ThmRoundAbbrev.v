(** C31 for recipes with abbreviations. *)
From Coq Require Import Ascii String ZArith Bool Lia List.
From Coq Require Import Floats.SpecFloat.
From Verif Require Import PyBase PyFloat ModelFortran ModelRecords ModelNum ModelRecipe ModelInterp ModelRecipes.
From Verif Require Import SpecFields SpecLibm SpecTape SpecInterp SpecInterpEx SpecRound SpecKinds SpecAbbrev ProofKinds ProofRoundAbbrev.
Import ListNotations.
Open Scope Z_scope.

(** The claim of C31 for a recipe [b] that uses the names of its abbreviations for nothing
    else, and dictionaries without entries of these names. [b'] is [b] with the expressions in
    the place of the abbreviations. *)
Theorem C31_round_trip_abbreviations_partial :
  forall wo ro blank depth G b b' explain o mf mt d lines c d', depth <> O ->
  unfolded_strictly (then_send b) = Some (then_send b') -> data (abbrs_block (then_send b)) (VDict d) ->
  field_width wo -> r_width ro = w_width wo -> good_schema G -> readable_recipe G (6 * w_width wo) b' = true ->
  conforms wo ro G d -> Z.abs mf <= 2 ^ 53 -> Z.abs mt <= 2 ^ 53 ->
  write_recipe (write_env ro wo blank depth) explain (then_send b) o mf mt d = (Ok (lines, c), d') ->
  in_columns wo lines ->
  forall o' tape, o_all o' = false -> o_fuzzy o' = false -> at_lines lines tape 0 ->
  exists r, parse_recipe (read_env ro wo depth) (then_send b) o' tape = (Ok r, o') /\
    printed_part wo ro G (numbered mf mt d) r /\
    forall e, thinned r (numbered mf mt d) e -> data (abbrs_block (then_send b)) (VDict e) ->
      exists e', write_recipe (write_env ro wo blank depth) explain (then_send b) o mf mt e = (Ok (lines, c), e').
Proof. exact strict_round_trip. Qed.
Print Assumptions C31_round_trip_abbreviations_partial.

(** The same if names of abbreviations are used for variables as well, as NW in MF=6. Missing:
    that the exception for it is not raised in reading what could be written. *)
Theorem C31_round_trip_reused_abbreviations_partial :
  forall wo ro blank depth G b b' explain o mf mt d lines c d', depth <> O ->
  unfolded (then_send b) = Some (then_send b') -> data [] (VDict d) ->
  field_width wo -> r_width ro = w_width wo -> good_schema G -> readable_recipe G (6 * w_width wo) b' = true ->
  conforms wo ro G d -> Z.abs mf <= 2 ^ 53 -> Z.abs mt <= 2 ^ 53 ->
  write_recipe (write_env ro wo blank depth) explain (then_send b) o mf mt d = (Ok (lines, c), d') ->
  in_columns wo lines ->
  forall o' tape, o_all o' = false -> o_fuzzy o' = false -> at_lines lines tape 0 ->
  fst (parse_recipe (read_env ro wo depth) (then_send b) o' tape) = Err AbbreviationNameCollisionError \/
  exists r, parse_recipe (read_env ro wo depth) (then_send b) o' tape = (Ok r, o') /\
    printed_part wo ro G (numbered mf mt d) r /\
    forall e, thinned r (numbered mf mt d) e -> data [] (VDict e) ->
      let w := write_recipe (write_env ro wo blank depth) explain (then_send b) o mf mt e in
      fst w = Ok (lines, c) \/ fst w = Err AbbreviationNameCollisionError.
Proof. exact reused_round_trip. Qed.
Print Assumptions C31_round_trip_reused_abbreviations_partial.

(** ** The recipes *)

Definition expanded (b : block) : block := match unfolded b with Some b' => b' | None => b end.

Example C31_recipes_abbreviations : forall b, In b [pendf_mf2_mt152; pendf_mf2_mt153; mf6] ->
  unfolded (then_send b) = Some (then_send (expanded b)) /\ good_schema (recipe_schema (expanded b)) /\
  readable_recipe (recipe_schema (expanded b)) (6 * w_width default_wo) (expanded b) = true.
Proof.
  assert (H : forallb (fun b => good_recipe (expanded b) && readable_recipe (recipe_schema (expanded b)) (6 * w_width default_wo) (expanded b))
                [pendf_mf2_mt152; pendf_mf2_mt153; mf6] = true) by (vm_compute; reflexivity).
  intros b Hb. split.
  - destruct Hb as [<-|[<-|[<-|[]]]]; vm_compute; reflexivity.
  - rewrite forallb_forall in H. apply H, andb_prop in Hb as [H1 H2]. split; [now apply good_recipe_spec|exact H2].
Qed.
Example C31_recipes_abbreviations_strict : forall b, In b [pendf_mf2_mt152; pendf_mf2_mt153] ->
  unfolded_strictly (then_send b) = Some (then_send (expanded b)).
Proof. intros b [<-|[<-|[]]]; vm_compute; reflexivity. Qed.

(** MF=6: one energy with two secondary energies and one angular parameter (LAW=1), in which NW
    is an abbreviation, and a subsection with LAW=5, in which it is a variable *)
Definition flt (m : positive) (e : Z) : val := VNum (NFlt (S754_finite false m e)).
Definition ex_tab (x y : str) : dict :=
  [(KStr $"NBT", VList [vint 2]); (KStr $"INT", VList [vint 2]); (KStr x, VList [flt 1 (-1); flt 3 4]); (KStr y, VList [vint 1; vint 1])].
Definition ix1 (v : val) : val := VDict [(KInt 1, v)].
Definition ex_head (law : Z) : dict :=
  [(KStr $"ZAP", vint 1); (KStr $"AWP", vint 1); (KStr $"LIP", vint 0); (KStr $"LAW", vint law); (KStr $"yields", VDict (ex_tab $"Eint" $"yi"));
   (KStr $"NE", vint 1); (KStr $"NBT", VList [vint 1]); (KStr $"INT", VList [vint 2]); (KStr $"E", ix1 (flt 3 2))].
Definition ex_law1 (na : Z) (nep : list Z) (m : list Z) : val :=
  VDict (ex_head 1 ++
    [(KStr $"LANG", vint 1); (KStr $"LEP", vint 2); (KStr $"ND", ix1 (vint 0)); (KStr $"NA", ix1 (vint na)); (KStr $"NEP", ix1 (vint (Z.of_nat (length nep))));
     (KStr $"Ep", ix1 (VDict (map (fun k => (KInt k, flt (Z.to_pos k) (-2))) nep)));
     (KStr $"b", ix1 (VDict (map (fun k => (KInt k, VDict (map (fun i => (KInt i, flt (Z.to_pos (k + i)) (-3))) m))) nep)))]).
Definition ex_law5 : val :=
  VDict (ex_head 5 ++
    [(KStr $"SPI", flt 1 (-1)); (KStr $"LIDP", vint 0); (KStr $"LTP", ix1 (vint 1)); (KStr $"NW", ix1 (vint 2)); (KStr $"NL", ix1 (vint 1));
     (KStr $"A", ix1 (VDict [(KInt 1, flt 3 (-2)); (KInt 2, flt 5 (-2))]))]).
Definition ex_mf6 (s1 : val) : dict :=
  [(KStr $"MAT", vint 125); (KStr $"MF", vint 6); (KStr $"MT", vint 5); (KStr $"ZA", vint 1001); (KStr $"AWR", vint 1);
   (KStr $"JP", vint 0); (KStr $"LCT", vint 2); (KStr $"NK", vint 2); (KStr $"subsection", VDict [(KInt 1, s1); (KInt 2, ex_law5)])].

Lemma ex_mf6_data s : data [] s -> data [] (VDict (ex_mf6 s)).
Proof.
  assert (X : data [] ex_law5).
  { repeat (constructor; cbn [fst snd]; try (intros x _ [])). }
  intros S. unfold ex_mf6. repeat (constructor; cbn [fst snd]; try (intros x _ []); try assumption).
Qed.
Example C31_abbreviations_example : let d := ex_mf6 (ex_law1 1 [1; 2] [0; 1]) in
  data [] (VDict d) /\ conforms default_wo default_ro (recipe_schema (expanded mf6)) d /\
  exists lines c d' r, write_recipe ex_wenv true (then_send mf6) strict_opts 6 5 d = (Ok (lines, c), d') /\
    in_columns default_wo lines /\ length lines = 16%nat /\
    parse_recipe ex_renv (then_send mf6) strict_opts lines = (Ok r, strict_opts) /\
    path_get [KStr $"subsection"; KInt 1; KStr $"NW"] (VDict r) = None /\
    path_get [KStr $"subsection"; KInt 2; KStr $"NW"; KInt 1] (VDict r) = Some (vint 2) /\
    path_get [KStr $"subsection"; KInt 1; KStr $"NEP"; KInt 1] (VDict r) = Some (vint 2).
Proof.
  intros d. split; [|split; [apply belongs_conforms; vm_compute; reflexivity|]].
  { apply ex_mf6_data. unfold ex_law1, ex_head, ix1, ex_tab, flt. cbn [app map length Z.of_nat]. repeat (constructor; cbn [fst snd]; try (intros x _ [])). }
  do 4 eexists. split; [vm_compute; reflexivity|]. split; [apply in_columnsb_spec; vm_compute; reflexivity|]. split; [vm_compute; reflexivity|].
  split; [vm_compute; reflexivity|]. split; [vm_compute; reflexivity|]. split; vm_compute; reflexivity.
Qed.

(** Counts must not be negative: with NA=-2 the section is written but cannot be read. *)
Theorem C31_negative_count_refuted : exists d lines c d',
  data [] (VDict d) /\ write_recipe ex_wenv true (then_send mf6) strict_opts 6 5 d = (Ok (lines, c), d') /\
  in_columns default_wo lines /\
  fst (parse_recipe ex_renv (then_send mf6) strict_opts lines) = Err ZeroDivisionError.
Proof.
  exists (ex_mf6 (ex_law1 (-2) [] [])). do 3 eexists. split; [|split; [vm_compute; reflexivity|split; [apply in_columnsb_spec; vm_compute; reflexivity|vm_compute; reflexivity]]].
  apply ex_mf6_data. unfold ex_law1, ex_head, ix1, ex_tab, flt. cbn [app map length Z.of_nat]. repeat (constructor; cbn [fst snd]; try (intros x _ [])).
Qed.
Print Assumptions C31_negative_count_refuted.
