(** C31: what write produces from a dictionary, parse reads back. *)
From Coq Require Import Ascii String ZArith Bool Lia List.
From Coq Require Import Floats.SpecFloat.
From Verif Require Import PyBase PyFloat ModelFortran ModelRecords ModelNum ModelRecipe ModelInterp ModelRecipes.
From Verif Require Import SpecFields SpecLibm SpecTape SpecTapeEx SpecInterp SpecInterpEx SpecRound SpecKinds ProofKinds ProofRound9 ProofClosed.
Import ListNotations.
Open Scope Z_scope.

(** Let [b] be a recipe all of whose fields, conditions and loop bounds can be read from the
    front, [d] a dictionary with values of the right kinds. If it is written into lines in
    which no number is wider than its columns, these lines (with or without further columns,
    and possibly followed by other lines) are read successfully. Every value that is read is
    the one in the dictionary as printed. And everything that was written is read: values of
    the dictionary that are not read back have no influence on the lines.

    Conditions may be evaluated with lookahead, by one record, if the branches can be told
    apart by numbers at the same places of the records they begin with.

    A field may be the product of a variable and a factor that is positive for certain: an
    expression of counts read before. Counts are integers that are not negative.

    Missing: lookahead by more than one record, INTG records; abbreviations are treated in
    ThmRoundAbbrev.v. *)
Theorem C31_round_trip_partial :
  forall wo ro blank depth G b explain o mf mt d lines c d',
  field_width wo -> r_width ro = w_width wo -> good_schema G -> readable_recipe G (6 * w_width wo) b = true ->
  conforms wo ro G d -> Z.abs mf <= 2 ^ 53 -> Z.abs mt <= 2 ^ 53 ->
  write_recipe (write_env ro wo blank depth) explain (then_send b) o mf mt d = (Ok (lines, c), d') ->
  in_columns wo lines ->
  forall o' tape, o_all o' = false -> o_fuzzy o' = false -> at_lines lines tape 0 ->
  exists r, parse_recipe (read_env ro wo depth) (then_send b) o' tape = (Ok r, o') /\
    printed_part wo ro G (numbered mf mt d) r /\
    forall e, thinned r (numbered mf mt d) e ->
      exists e', write_recipe (write_env ro wo blank depth) explain (then_send b) o mf mt e = (Ok (lines, c), e').
Proof. exact round_trip. Qed.
Print Assumptions C31_round_trip_partial.

(** If no branch of a conditional with lookahead is chosen, nothing is written, and the reader
    would look ahead into whatever comes next. The same claim for recipes with such
    conditionals, for dictionaries with which this does not happen: the recipe with a stop
    instruction in the place of the missing [else] writes them, too. *)
Theorem C31_round_trip_lookahead_partial :
  forall wo ro blank depth G b explain o mf mt d lines c d',
  field_width wo -> r_width ro = w_width wo -> good_schema G -> readable_recipe G (6 * w_width wo) (closed b) = true ->
  conforms wo ro G d -> Z.abs mf <= 2 ^ 53 -> Z.abs mt <= 2 ^ 53 ->
  write_recipe (write_env ro wo blank depth) explain (then_send (closed b)) o mf mt d = (Ok (lines, c), d') ->
  in_columns wo lines ->
  write_recipe (write_env ro wo blank depth) explain (then_send b) o mf mt d = (Ok (lines, c), d') /\
  forall o' tape, o_all o' = false -> o_fuzzy o' = false -> at_lines lines tape 0 ->
  exists r, parse_recipe (read_env ro wo depth) (then_send b) o' tape = (Ok r, o') /\
    printed_part wo ro G (numbered mf mt d) r /\
    forall e, thinned r (numbered mf mt d) e ->
      exists e', write_recipe (write_env ro wo blank depth) explain (then_send b) o mf mt e = (Ok (lines, c), e').
Proof. exact closed_round_trip. Qed.
Print Assumptions C31_round_trip_lookahead_partial.

(** ** The recipes of the package that are covered, each with the kinds its records give to
    the variables *)
Definition covered : list block :=
  [mf1_mt451; mf1_mt452; mf1_mt456; mf3; mf7_mt2; mf7_mt451; mf8; mf8_mt454; mf8_mt459; mf9; mf10; mf13; mf23; mf27; mf31;
   pendf_mf1_mt451; pendf_mf3; pendf_mf23].
Example C31_recipes : forall b, In b covered ->
  good_schema (recipe_schema b) /\ readable_recipe (recipe_schema b) (6 * w_width default_wo) b = true.
Proof.
  assert (H : forallb (fun b => good_recipe b && readable_recipe (recipe_schema b) (6 * w_width default_wo) b) covered = true)
    by (vm_compute; reflexivity).
  intros b Hb. rewrite forallb_forall in H. apply H, andb_prop in Hb as [H1 H2]. split; [now apply good_recipe_spec|exact H2].
Qed.

Definition covered_closed : list block := [mf12; mf14; mf15; mf1_mt460; mf34; mf35; mf4; mf5; mf8_mt457].
Example C31_recipes_lookahead : forall b, In b covered_closed ->
  good_schema (recipe_schema b) /\ readable_recipe (recipe_schema b) (6 * w_width default_wo) (closed b) = true.
Proof.
  assert (H : forallb (fun b => good_recipe b && readable_recipe (recipe_schema b) (6 * w_width default_wo) (closed b)) covered_closed = true)
    by (vm_compute; reflexivity).
  intros b Hb. rewrite forallb_forall in H. apply H, andb_prop in Hb as [H1 H2]. split; [now apply good_recipe_spec|exact H2].
Qed.

(** MF=8: two subsections with one and two decay modes *)
Definition flt (m : positive) (e : Z) : val := VNum (NFlt (S754_finite false m e)).
Definition ex_mode (n : list Z) : dict := map (fun i => (KInt i, flt (Z.to_pos (2 * i + 1)) (-3))) n.
Definition ex_sub (nd : Z) (l : list Z) : val :=
  VDict [(KStr $"ZAP", vint 27060); (KStr $"ELFS", flt 58590 0); (KStr $"LMF", vint 10); (KStr $"LFS", vint 1); (KStr $"ND", vint nd);
         (KStr $"HL", VDict (ex_mode l)); (KStr $"RTYP", VDict (ex_mode l)); (KStr $"ZAN", VDict (ex_mode l));
         (KStr $"BR", VDict (ex_mode l)); (KStr $"END", VDict (ex_mode l)); (KStr $"CT", VDict (ex_mode l))].
Definition ex_mf8 (lfs : Z) : dict :=
  [(KStr $"MAT", vint 2725); (KStr $"MF", vint 8); (KStr $"MT", vint 102);
   (KStr $"ZA", vint 27059); (KStr $"AWR", flt 5131193 (-16)); (KStr $"LIS", vint 0); (KStr $"LISO", vint 0);
   (KStr $"NS", vint 2); (KStr $"NO", vint lfs); (KStr $"subsection", VDict [(KInt 1, ex_sub 1 [1]); (KInt 2, ex_sub 2 [1; 2])])].

Definition written (b : block) (mf mt : Z) (d : dict) : list str :=
  match write_recipe ex_wenv true (then_send b) strict_opts mf mt d with (Ok (l, _), _) => l | _ => [] end.
Definition meets (b : block) (mf mt : Z) (d : dict) : bool :=
  readable_recipe (recipe_schema b) (6 * w_width default_wo) b && good_recipe b &&
  belongs default_wo default_ro (recipe_schema b) [] SecV (VDict d) &&
  match write_recipe ex_wenv true (then_send b) strict_opts mf mt d with (Ok (l, _), _) => in_columnsb default_wo l | _ => false end.

(** the hypotheses hold, seven lines are written, and what is read back is this *)
Example C31_example :
  meets mf8 8 102 (ex_mf8 0) = true /\ length (written mf8 8 102 (ex_mf8 0)) = 7%nat /\
  exists r, parse_recipe ex_renv (then_send mf8) strict_opts (written mf8 8 102 (ex_mf8 0)) = (Ok r, strict_opts) /\
    path_get [KStr $"subsection"; KInt 2; KStr $"HL"; KInt 2] (VDict r) <> None.
Proof.
  split; [vm_compute; reflexivity|]. split; [vm_compute; reflexivity|].
  eexists. split; [vm_compute; reflexivity|]. vm_compute. discriminate.
Qed.
Example C31_example_hypotheses :
  good_schema (recipe_schema mf8) /\ readable_recipe (recipe_schema mf8) (6 * w_width default_wo) mf8 = true /\
  conforms default_wo default_ro (recipe_schema mf8) (ex_mf8 0) /\
  (exists lines c d', write_recipe (write_env default_ro default_wo false 100) true (then_send mf8) strict_opts 8 102 (ex_mf8 0) =
     (Ok (lines, c), d') /\ in_columns default_wo lines).
Proof.
  assert (H : meets mf8 8 102 (ex_mf8 0) = true) by (vm_compute; reflexivity). unfold meets in H.
  apply andb_prop in H as [H H4]. apply andb_prop in H as [H H3]. apply andb_prop in H as [H1 H2].
  split; [now apply good_recipe_spec|]. split; [exact H1|]. split; [now apply belongs_conforms|].
  unfold ex_wenv in H4. destruct (write_recipe _ _ _ _ _ _ _) as [[[l c]|e] d']; [|discriminate H4].
  exists l, c, d'. split; [reflexivity|now apply in_columnsb_spec].
Qed.

(** MF=35: two subsections with three and two energies *)
Definition ex_vec (n : list Z) : val := VDict (map (fun i => (KInt i, flt (Z.to_pos (2 * i + 1)) (-3))) n).
Definition ex_cov (ls : Z) (ne : list Z) : val :=
  let m := removelast ne in
  VDict [(KStr $"E1", flt 1 (-20)); (KStr $"E2", flt 3 20); (KStr $"LS", vint ls); (KStr $"LB", vint 7);
         (KStr $"NT", vint (Z.of_nat (length ne + Nat.div (length m * length ne) 2))); (KStr $"NE", vint (Z.of_nat (length ne)));
         (KStr $"E", ex_vec ne); (KStr $"F", VDict (map (fun i => (KInt i, ex_vec (filter (fun j => i <=? j) m))) m))].
Definition ex_mf35 (ls : Z) : dict :=
  [(KStr $"MAT", vint 9228); (KStr $"MF", vint 35); (KStr $"MT", vint 18); (KStr $"ZA", vint 92235); (KStr $"AWR", flt 15267 (-16));
   (KStr $"NK", vint 2); (KStr $"subsection", VDict [(KInt 1, ex_cov ls [1; 2; 3]); (KInt 2, ex_cov 1 [1; 2])])].
Example C31_lookahead_example :
  good_schema (recipe_schema mf35) /\ readable_recipe (recipe_schema mf35) (6 * w_width default_wo) (closed mf35) = true /\
  conforms default_wo default_ro (recipe_schema mf35) (ex_mf35 1) /\
  (exists lines c d', write_recipe (write_env default_ro default_wo false 100) true (then_send (closed mf35)) strict_opts 35 18 (ex_mf35 1) =
     (Ok (lines, c), d') /\ in_columns default_wo lines /\ length lines = 6%nat).
Proof.
  assert (H : match write_recipe ex_wenv true (then_send (closed mf35)) strict_opts 35 18 (ex_mf35 1) with
              | (Ok (l, _), _) => in_columnsb default_wo l && Nat.eqb (length l) 6 | _ => false end = true) by (vm_compute; reflexivity).
  split; [apply good_recipe_spec; vm_compute; reflexivity|]. split; [vm_compute; reflexivity|].
  split; [apply belongs_conforms; vm_compute; reflexivity|].
  unfold ex_wenv in H. destruct (write_recipe _ _ _ _ _ _ _) as [[[l c]|e] d']; [|discriminate H].
  apply andb_prop in H as [H1 H2]. exists l, c, d'. split; [reflexivity|]. split; [now apply in_columnsb_spec|now apply Nat.eqb_eq].
Qed.

(** ** Where the claim fails *)

(** Nothing is written for a subsection of MF=35 with LS=0, and the reader takes the record of
    the second subsection for the first. *)
Theorem C31_no_branch_refuted : exists b mf mt d lines c d' r,
  good_schema (recipe_schema b) /\ readable_recipe (recipe_schema b) (6 * w_width default_wo) (closed b) = true /\
  conforms default_wo default_ro (recipe_schema b) d /\
  write_recipe ex_wenv true (then_send b) strict_opts mf mt d = (Ok (lines, c), d') /\ in_columns default_wo lines /\
  parse_recipe ex_renv (then_send b) strict_opts lines = (Ok r, strict_opts) /\
  ~ printed_part default_wo default_ro (recipe_schema b) (numbered mf mt d) r.
Proof.
  exists mf35, 35, 18, (ex_mf35 0). do 4 eexists.
  split; [apply good_recipe_spec; vm_compute; reflexivity|]. split; [vm_compute; reflexivity|].
  split; [apply belongs_conforms; vm_compute; reflexivity|]. split; [vm_compute; reflexivity|].
  split; [apply in_columnsb_spec; vm_compute; reflexivity|]. split; [vm_compute; reflexivity|].
  intros P. destruct (P [KStr $"subsection"; KInt 1; KStr $"NE"] (vint 2)) as (v & Hv & [[X _]|(k & Hk & X)]).
  - repeat constructor; intros [X|[X|X]]; discriminate X.
  - vm_compute. reflexivity.
  - vm_compute in Hv. injection Hv as <-. destruct X as [? X]; discriminate X.
  - vm_compute in Hv, Hk. injection Hv as <-. injection Hk as <-. inversion X; match goal with A : admits _ _ = true |- _ => discriminate A end.
Qed.
Print Assumptions C31_no_branch_refuted.

(** Numbers wider than their columns are written but not read: LIS has twelve digits. *)
Theorem C31_overflow_refuted : exists b mf mt d lines c d' e,
  good_schema (recipe_schema b) /\ readable_recipe (recipe_schema b) (6 * w_width default_wo) b = true /\
  conforms default_wo default_ro (recipe_schema b) d /\
  write_recipe ex_wenv true (then_send b) strict_opts mf mt d = (Ok (lines, c), d') /\
  fst (parse_recipe ex_renv (then_send b) strict_opts lines) = Err e.
Proof.
  exists mf8, 8, 102, (dset (KStr $"LIS") (vint 123456789012) (ex_mf8 0)).
  do 3 eexists. exists UnexpectedControlRecordError.
  split; [apply good_recipe_spec; vm_compute; reflexivity|]. split; [vm_compute; reflexivity|].
  split; [apply belongs_conforms; vm_compute; reflexivity|]. split; [vm_compute; reflexivity|]. vm_compute. reflexivity.
Qed.
Print Assumptions C31_overflow_refuted.

(** A field that is the product of two variables cannot be read if the known factor is zero,
    although nothing else in the recipe depends on the other:
    [MAT,MF,MT/ ZA, AWR, N, N*K, 0, 0]HEAD SEND *)
Definition ex_product : block :=
  instrs [ICont true anyspec (f6 (ev0 "ZA") (ev0 "AWR") (ev0 "N") (EMul (ev0 "N") (ev0 "K")) (ei 0) (ei 0))].
Definition ex_product_dict (n : Z) : dict :=
  [(KStr $"MAT", vint 125); (KStr $"ZA", vint 1001); (KStr $"AWR", vint 1); (KStr $"N", vint n); (KStr $"K", vint 5)].
Theorem C31_zero_factor_refuted : exists d lines c d' e,
  conforms default_wo default_ro (recipe_schema ex_product) d /\
  write_recipe ex_wenv true (then_send ex_product) strict_opts 3 1 d = (Ok (lines, c), d') /\
  in_columns default_wo lines /\
  fst (parse_recipe ex_renv (then_send ex_product) strict_opts lines) = Err e.
Proof.
  exists (ex_product_dict 0). do 3 eexists. eexists.
  split; [apply belongs_conforms; vm_compute; reflexivity|]. split; [vm_compute; reflexivity|].
  split; [apply in_columnsb_spec; vm_compute; reflexivity|]. vm_compute. reflexivity.
Qed.
Print Assumptions C31_zero_factor_refuted.
(** with another factor it can be read *)
Example C31_product_example : exists r,
  parse_recipe ex_renv (then_send ex_product) strict_opts (written ex_product 3 1 (ex_product_dict 2)) = (Ok r, strict_opts) /\
  dget (KStr $"K") r = Some (vint 5).
Proof. eexists. split; [vm_compute; reflexivity|]. vm_compute. reflexivity. Qed.
