(** C67: exit codes and results of the commands validate, match and compare. *)
From Coq Require Import Ascii String ZArith Bool Lia List.
From Coq Require Import Floats.SpecFloat.
From Verif Require Import PyBase PyFloat ModelFortran ModelRecords ModelTape ModelNum ModelRecipe ModelInterp ModelParser ModelPath ModelMatch ModelTools ModelCli ModelCommands.
From Verif Require Import SpecFields SpecLibm SpecTape SpecTapeEx SpecInterp SpecInterpEx SpecTools SpecCommands ProofFields ProofTools ProofCommands.
Import ListNotations.
Open Scope Z_scope.

(** The exit code of validate is 0 if and only if a new parser object would accept each of the files, whatever the order
    of the files, and although one parser object reads all of them. All files are in the summary, and it is right up to the
    first file that fails. *)
Theorem C67_validate : forall p read o glob names code status, validate (parsefile p read) glob o names = (code, status) ->
  (code = 0 <-> Forall (valid_file p read o) (flat_map glob names)) /\ (code = 0 \/ code = 1) /\ map fst status = flat_map glob names /\
  forall pre f ok post, status = pre ++ (f, ok) :: post -> (forall x, In x pre -> snd x = true) -> (ok = true <-> valid_file p read o f).
Proof. intros p read o glob names code status H. pose proof (validate_exit p read o glob names) as V. rewrite H in V. exact V. Qed.
Print Assumptions C67_validate.
(** Without lookahead in the recipes the whole summary is right. *)
Theorem C67_validate_summary : forall p read o glob names code status f ok,
  (forall mf mt b, find_recipe (p_recipes p) mf mt = Some b -> no_look_block b = true) ->
  validate (parsefile p read) glob o names = (code, status) -> In (f, ok) status -> (ok = true <-> valid_file p read o f).
Proof. intros p read o glob names code status f ok L H I. apply (validate_each p read o glob names f ok L). rewrite H. exact I. Qed.
Print Assumptions C67_validate_summary.
(** With any recipes, a valid file is listed as ok, whatever files were read before. *)
Theorem C67_validate_good : forall p read o glob names code status f ok,
  validate (parsefile p read) glob o names = (code, status) -> valid_file p read o f -> In (f, ok) status -> ok = true.
Proof. intros p read o glob names code status f ok H V I. apply (validate_good p read o glob names f ok V). rewrite H. exact I. Qed.
Print Assumptions C67_validate_good.
(** the files of a disk; the exception of open() stands for any exception *)
Definition named (l : list (str * list str)) (n : str) : result (list str) :=
  match find (fun x => str_eqb n (fst x)) l with Some x => Ok (snd x) | None => Err ValueError end.
Definition one (n : str) : list str := [n].
(** Otherwise a file can be reported as ok behind a file that failed, although it is not. *)
Theorem C67_summary_refuted : exists read a b, ~ valid_file ex_look_parser read strict_opts b /\
  validate (parsefile ex_look_parser read) one strict_opts [a; b] = (1, [(a, false); (b, true)]).
Proof.
  exists (named [($"a.endf", ex_tape_of [(1, ex_garbage)]); ($"b.endf", ex_tape_of [(1, ex_mismatch)])]), $"a.endf", $"b.endf".
  split; [|vm_compute; reflexivity]. intros (d & ls & R & P). vm_compute in R. injection R as <-. vm_compute in P. discriminate.
Qed.
Print Assumptions C67_summary_refuted.
(** A file that was cut short makes validate fail. *)
Theorem C67_validate_cut : forall p read o glob names f pre post d, r_send (p_ro p) = false -> In f (flat_map glob names) -> read f = Ok pre ->
  split_sections (p_ro p) (pre ++ post) = Ok d -> (exists l, In l post /\ ~ blank l) ->
  fst (validate (parsefile p read) glob o names) = 1.
Proof. intros p read o. exact (validate_cut p read o). Qed.
Print Assumptions C67_validate_cut.
(** The exit code is also 0 if the names given match no file, so a mistyped name of a file counts as valid. *)
Theorem C67_no_files_refuted : forall p read o glob names, (forall n, In n names -> glob n = []) ->
  validate (parsefile p read) glob o names = (0, []).
Proof.
  intros p read o glob names H. unfold validate. assert (flat_map glob names = []) as ->; [|reflexivity].
  induction names as [|n r IH]; [reflexivity|]. cbn [flat_map]. rewrite (H n (or_introl eq_refl)). apply IH. intros m M. apply H. now right.
Qed.
Print Assumptions C67_no_files_refuted.

(** match: the exit code tells whether all files could be read (not whether something was found); if so, the files that are
    reported are those whose dictionaries meet the query. *)
Theorem C67_match : forall p read o glob q names code out, match_files (parsefile p read) glob q o names = Ok (code, out) ->
  (code = 0 <-> Forall (valid_file p read o) (flat_map glob names)) /\ (code = 0 \/ code = 1) /\
  (code = 0 -> forall f b, In (f, b) out <-> In f (flat_map glob names) /\ exists d, reads_as p read o f d /\ eval_tree_print q (as_object d) = Ok b).
Proof. intros p read o. exact (match_exit p read o). Qed.
Print Assumptions C67_match.

(** Also if other files cannot be read, the query is evaluated with the data of every file that can be read. *)
Theorem C67_match_good : forall p read o glob q names code out f d, match_files (parsefile p read) glob q o names = Ok (code, out) ->
  In f (flat_map glob names) -> reads_as p read o f d -> exists b, eval_tree_print q (as_object d) = Ok b /\ In (f, b) out.
Proof. intros p read o. exact (match_good p read o). Qed.
Print Assumptions C67_match_good.

(** compare: the exit code is 0 if and only if both files can be read and their data are the same within the tolerances. *)
Theorem C67_compare : forall p read o atol rtol f1 f2,
  (compare_files (parsefile p read) atol rtol o f1 f2 = 0 <->
     exists d1 d2, reads_as p read o f1 d1 /\ reads_as p read o f2 d2 /\ same (tolerance atol rtol) (as_object d1) (as_object d2)) /\
  (compare_files (parsefile p read) atol rtol o f1 f2 = 0 \/ compare_files (parsefile p read) atol rtol o f1 f2 = 1).
Proof. exact compare_exit. Qed.
Print Assumptions C67_compare.
Theorem C67_compare_self : forall p read o atol rtol f d, nonneg_float atol -> nonneg_float rtol -> reads_as p read o f d -> finite_data (as_object d) ->
  compare_files (parsefile p read) atol rtol o f f = 0.
Proof. intros p read o atol rtol f d A R H F. apply (compare_exit p read o). exists d, d. split; [exact H|]. split; [exact H|]. now apply same_refl. Qed.
Print Assumptions C67_compare_self.

(** ** Examples *)
Definition q1 : parser := ex_parser [(3, RByMt [(1, then_send ex_body)])].
Definition ex_slines2 : list str :=
  [ex_sl $" 1.001000+3 9.991673-1          0          2          2          0";
   ex_sl $" 3.000000+0 0.000000+0          5          0          2          0";
   ex_sl $" 2.500000+0 0.000000+0          8          0          2          0";
   ex_sl $"-7.000000+0 0.000000+0          0          0          0          0"].
Definition ex_disk : str -> result (list str) :=
  named [($"a", ex_tape_of [(1, ex_slines)]); ($"b", ex_tape_of [(1, ex_slines2)]); ($"c", firstn 3 (ex_tape_of [(1, ex_slines)]))].
Definition half : spec_float := round64 false 1 2.
Definition zero : spec_float := S754_zero false.

Example C67_case :
  validate (parsefile q1 ex_disk) one strict_opts [$"a"; $"b"] = (0, [($"a", true); ($"b", true)]) /\
  validate (parsefile q1 ex_disk) one strict_opts [$"a"; $"c"; $"d"; $"b"] = (1, [($"a", true); ($"c", false); ($"d", false); ($"b", true)]) /\
  match_files (parsefile q1 ex_disk) one (QRel ModelRecipe.RGt (QPath [KStr $"*"; KStr $"*"; KStr $"E"; KStr $"*"]) (QNum (NFlt (round64 false 14 5)))) strict_opts [$"a"; $"b"] =
    Ok (0, [($"a", false); ($"b", true)]) /\
  compare_files (parsefile q1 ex_disk) zero zero strict_opts $"a" $"a" = 0 /\
  compare_files (parsefile q1 ex_disk) zero zero strict_opts $"a" $"b" = 1 /\
  compare_files (parsefile q1 ex_disk) zero zero strict_opts $"a" $"c" = 1 /\
  (forall mf mt b, find_recipe (p_recipes q1) mf mt = Some b -> no_look_block b = true) /\
  (exists d, split_sections (p_ro q1) (firstn 3 (ex_tape_of [(1, ex_slines)]) ++ skipn 3 (ex_tape_of [(1, ex_slines)])) = Ok d) /\ r_send (p_ro q1) = false.
Proof.
  repeat (split; [vm_compute; reflexivity|]). split.
  - intros mf mt b. unfold find_recipe, q1, ex_parser. cbn [p_recipes]. destruct (Z.eq_dec mf 3) as [->|N].
    + destruct (Z.eq_dec mt 1) as [->|M].
      * intros H. vm_compute in H. injection H as <-. vm_compute. reflexivity.
      * intros H. exfalso. revert H. cbn. destruct (Z.eqb_spec mt 1); [contradiction|]. destruct (Z.eqb_spec 1 mt); [lia|]. discriminate.
    + intros H. exfalso. revert H. cbn. destruct (Z.eqb_spec mf 3); [contradiction|]. destruct (Z.eqb_spec 3 mf); [lia|]. discriminate.
  - split; [eexists; vm_compute; reflexivity|reflexivity].
Qed.
(** The order of the files matters: the tolerance is relative to the second file. *)
Theorem C67_compare_order_refuted : exists read atol rtol f1 f2, nonneg_float atol /\ nonneg_float rtol /\
  compare_files (parsefile q1 read) atol rtol strict_opts f1 f2 = 0 /\ compare_files (parsefile q1 read) atol rtol strict_opts f2 f1 = 1.
Proof.
  exists ex_disk, zero, half, $"a", $"b". split; [now left|]. split; [right; vm_compute; eexists; eexists; reflexivity|].
  split; vm_compute; reflexivity.
Qed.
Print Assumptions C67_compare_order_refuted.
