(** Theorems about the user tools: C41, C43-C46. *)
From Coq Require Import Ascii String ZArith Bool Lia List.
From Coq Require Import Floats.SpecFloat.
From Verif Require Import PyBase PyFloat ModelFortran ModelRecords ModelTape SpecTape SpecTapeEx.
From Verif Require Import ModelInterp ModelPath ModelTools SpecInterp SpecPath SpecTools.
From Verif Require Import ProofInterpSec ProofTools ProofRing ProofDesc ProofDir ProofLocate ProofToolsEx.
Import ListNotations.
Open Scope Z_scope.

(** ** C41 *)

(** Without fail_on_diff the result tells whether the objects agree, and so does the list of
    differences. *)
Theorem C41_decides : forall o a b, c_fail o = false ->
  exists r ds, compare_objects o a b = (Ok r, ds) /\ (r = true <-> same o a b) /\ (ds = [] <-> same o a b).
Proof. exact compare_log. Qed.
Print Assumptions C41_decides.

(** With fail_on_diff an error is raised exactly if they differ. *)
Theorem C41_fails : forall o a b, c_fail o = true ->
  (same o a b -> compare_objects o a b = (Ok true, [])) /\
  (~ same o a b -> exists e, compare_objects o a b = (Err e, []) /\ (e = TypeError \/ e = IndexError \/ e = ValueError)).
Proof. exact compare_fail. Qed.
Print Assumptions C41_fails.

Theorem C41_reflexive : forall o a, nonneg_float (c_atol o) -> nonneg_float (c_rtol o) -> finite_data a -> same o a a.
Proof. exact same_refl. Qed.
Print Assumptions C41_reflexive.

Example C41_example :
  compare_objects (cmp_ex false) (VDict ex_cmp1) (VDict ex_cmp2) = (Ok false, [ ([], DOnly2); ($"/B[1]", DValue); ($"/1", DType) ]) /\
  compare_objects (cmp_ex true) (VDict ex_cmp1) (VDict ex_cmp2) = (Err IndexError, []) /\
  compare_objects (cmp_ex true) (VDict ex_cmp1) (VDict (rev ex_cmp1)) = (Ok true, []) /\
  finite_data (VDict ex_cmp1) /\ nonneg_float (c_atol (cmp_ex true)) /\ nonneg_float (c_rtol (cmp_ex true)).
Proof. exact cmp_example. Qed.

(** An infinite number differs from itself: inf - inf is NaN. *)
Theorem C41_infinity_refuted : exists a, same (cmp_ex false) a a <-> False.
Proof. exact infinity_refuted. Qed.
Print Assumptions C41_infinity_refuted.

(** The comparison is not symmetric: the tolerance is relative to the second object. *)
Theorem C41_symmetric_refuted : exists o a b, nonneg_float (c_atol o) /\ nonneg_float (c_rtol o) /\ same o a b /\ ~ same o b a.
Proof. exact symmetric_refuted. Qed.
Print Assumptions C41_symmetric_refuted.

(** ** C43 *)

(** [m] holds the lines of the sections, as split_sections returns them. *)
Theorem C43_directory : forall m old nwd, is_dict2 m -> (exists ls, holds m 1 451 ls) ->
  dget (KStr $"NWD") old = Some (VNum (NInt nwd)) -> proper_directory old ->
  exists new, update_directory m old = Ok new /\ directory_of (holds m) old new /\ (ascending2 m -> ascending_rows new).
Proof. exact updated. Qed.
Print Assumptions C43_directory.

(** The lines are those of a file with an MF1/MT451 section; the sections are in ascending
    order if they are in the file, as they are in the files that are written (C04). *)
Theorem C43_file : forall ro t old nwd, r_send ro = false -> tape_ok ro t -> tape_section t 1 451 <> [] ->
  dget (KStr $"NWD") old = Some (VNum (NInt nwd)) -> proper_directory old ->
  exists new, update_directory_from ro (tape_lines t) old = Ok new /\
    directory_of (fun mf mt ls => ls = tape_section t mf mt /\ ls <> []) old new /\ (ordered_tape t -> ascending_rows new).
Proof. exact updated_file. Qed.
Print Assumptions C43_file.

Example C43_example : is_dict2 ex_sections /\ ascending2 ex_sections /\ proper_directory ex_451 /\
  exists new, update_directory ex_sections ex_451 = Ok new /\ dget (KStr $"NXC") new = Some (VNum (NInt 3)) /\
    entry new 1 1 451 14 0 /\ entry new 2 3 1 2 7 /\ entry new 3 3 2 1 0.
Proof. exact directory_example. Qed.

(** If the lines lack the section MF1/MT451 it is listed nevertheless, but not counted in NXC. *)
Theorem C43_not_counted_refuted : exists m new, is_dict2 m /\ proper_directory ex_451 /\
  update_directory m ex_451 = Ok new /\ dget (KStr $"NXC") new = Some (VNum (NInt 1)) /\
  (exists nc md, entry new 1 1 452 nc md) /\ (exists nc md, entry new 2 1 451 nc md).
Proof. exact not_counted_refuted. Qed.
Print Assumptions C43_not_counted_refuted.

(** ** C44 *)

Theorem C44_get : forall mt451 l, describes mt451 l -> get_description mt451 = Ok (join [lf] l).
Proof. exact described_get. Qed.
Print Assumptions C44_get.

Theorem C44_set : forall text mt451,
  let new := set_description text mt451 in
  describes new (map (ljust 66) (splitlines text)) /\
  get_description new = Ok (join [lf] (map (ljust 66) (splitlines text))) /\
  dget (KStr $"NWD") new = Some (VNum (NInt (Z.of_nat (length (splitlines text)) + 5))) /\
  (forall k, k <> KStr $"NWD" -> k <> KStr $"DESCRIPTION" -> dget k new = dget k mt451).
Proof.
  intros text mt451. split; [apply set_describes|]. split; [apply described_get, set_describes|]. split; [apply set_nwd|apply set_others].
Qed.
Print Assumptions C44_set.

(** The lines of a text: what was joined by newlines, unless it ends with an empty line. *)
Theorem C44_lines : forall l, Forall (Forall (fun c => is_break c = false)) l -> (forall p s, l = p ++ [s] -> s <> []) ->
  splitlines (join [lf] l) = l.
Proof. exact splitlines_join. Qed.
Print Assumptions C44_lines.

Theorem C44_insert : forall text k old mt451, describes mt451 old -> Forall one_line old -> 0 <= k ->
  (forall p, splitlines text <> p ++ [[]]) \/ k < Z.of_nat (length old) ->
  let new := firstn (Z.to_nat k) old ++ splitlines text ++ skipn (Z.to_nat k) old in
  exists mt451', insert_description text k mt451 = Ok mt451' /\ describes mt451' (map (ljust 66) new) /\
    dget (KStr $"NWD") mt451' = Some (VNum (NInt (Z.of_nat (length new) + 5))) /\
    (forall x, x <> KStr $"NWD" -> x <> KStr $"DESCRIPTION" -> dget x mt451' = dget x mt451).
Proof. exact insert_lines. Qed.
Print Assumptions C44_insert.

Example C44_example : let new := set_description ($"one" ++ lf :: lf :: $"three") ex_451 in
  describes new [ ljust 66 $"one"; ljust 66 []; ljust 66 $"three" ] /\ Forall one_line [ ljust 66 $"one"; ljust 66 []; ljust 66 $"three" ] /\
  (exists new', insert_description $"two" 1 new = Ok new' /\ describes new' [ ljust 66 $"one"; ljust 66 $"two"; ljust 66 []; ljust 66 $"three" ]).
Proof. exact description_example. Qed.

(** Long lines are not trimmed, although the documentation says so. *)
Theorem C44_trimmed_refuted : exists text l, describes (set_description text ex_451) [l] /\ (66 < length l)%nat.
Proof. exact trimmed_refuted. Qed.
Print Assumptions C44_trimmed_refuted.

(** An empty line at the end of a text that is inserted at the end gets lost. *)
Theorem C44_insert_empty_refuted : exists text old mt451 mt451', describes mt451 old /\ Forall one_line old /\
  splitlines text = [ $"two"; [] ] /\ insert_description text 1 mt451 = Ok mt451' /\ length old = 1%nat /\
  dget (KStr $"NWD") mt451' = Some (VNum (NInt (2 + 5))).
Proof. exact insert_empty_refuted. Qed.
Print Assumptions C44_insert_empty_refuted.

(** ** C45 *)

Theorem C45_sections : forall (D : Type) (d : mfdic (section D)), is_dict2 d ->
  NoDup (list_parsed_sections d ++ list_unparsed_sections d) /\
  (forall mf mt, In (mf, mt) (list_parsed_sections d) <-> exists x, holds d mf mt (Parsed x)) /\
  (forall mf mt, In (mf, mt) (list_unparsed_sections d) <-> exists ls, holds d mf mt (Raw ls)).
Proof. exact @listing. Qed.
Print Assumptions C45_sections.

(** What locate returns: the paths to the key, except those below a dictionary with this key. *)
Theorem C45_locate : forall d name,
  (forall p, In p (locate d name) <-> first_stored_at name p (VDict d)) /\
  (forall p, In p (locate d name) -> stored_at name p (VDict d)) /\
  (unique_data (VDict d) -> NoDup (locate d name)).
Proof.
  intros d name. split; [apply located|]. split; [intros p I; apply first_is_stored, located; exact I|]. apply locate_nodup.
Qed.
Print Assumptions C45_locate.

Theorem C45_values : forall d name, unique_data (VDict d) ->
  exists vs, get_endf_values d (locate d name) = Ok vs /\ length vs = length (locate d name).
Proof. exact values_found. Qed.
Print Assumptions C45_values.

Example C45_example : locate ex_nested (KStr $"ZA") = [ [KInt 1; KInt 451; KStr $"ZA"]; [KInt 3; KInt 1; KStr $"ZA"] ] /\ unique_data (VDict ex_nested).
Proof. exact locate_example. Qed.

Theorem C45_locate_all_refuted : exists d name p, stored_at name p (VDict d) /\ ~ In p (locate d name).
Proof. exact locate_all_refuted. Qed.
Print Assumptions C45_locate_all_refuted.

(** Keys that became strings in JSON are restored. *)
Theorem C45_json : forall n d, named_data n (VDict d) ->
  exists d' e, json_keys (VDict d) = VDict d' /\ sanitize n d' = Ok e /\ same_data (VDict d) (VDict e).
Proof. intros n d H. destruct (sanitized n d H) as (e & E & S). exists (jd d), e. split; [reflexivity|]. split; assumption. Qed.
Print Assumptions C45_json.

Example C45_json_example : named_data 3 (VDict ex_nested) /\
  exists d' e, json_keys (VDict ex_nested) = VDict d' /\ map fst d' = [KStr $"1"; KStr $"3"] /\ sanitize 3 d' = Ok e /\ map fst e = [KInt 1; KInt 3].
Proof. exact json_example. Qed.

(** A dictionary with integer keys is rejected, although nothing is to be converted. *)
Theorem C45_int_keys_refuted : exists d, unique_data (VDict d) /\ sanitize 3 d = Err IndexError.
Proof. exact int_keys_refuted. Qed.
Print Assumptions C45_int_keys_refuted.

(** Dictionaries inside lists keep their string keys. *)
Theorem C45_lists_refuted : exists d d' e, json_keys (VDict d) = VDict d' /\ sanitize 3 d' = Ok e /\ ~ same_data (VDict d) (VDict e) /\
  d = [(KStr $"x", VList [VDict [(KInt 1, VNone)]])].
Proof. exact json_lists_refuted. Qed.
Print Assumptions C45_lists_refuted.

(** ** C46 *)

Theorem C46_recent : forall (A : Type) c (l : list A), (0 < c)%nat ->
  get_queue (enqueue_all l (ring_new (Z.of_nat c))) = map Some (last_n c l).
Proof. intros A c l C. apply queue_step; [exact C|]. exact (enqueue_all_step c C l [] _ (new_step c)). Qed.
Print Assumptions C46_recent.

(** Going back to a saved state. What is missing: it fails if the log has wrapped around
    meanwhile, as the next theorem shows. *)
Theorem C46_restored_partial : forall (A : Type) c (l1 l2 l3 : list A), (0 < c)%nat -> (length l1 + length l2 <= c)%nat ->
  let r := enqueue_all l1 (ring_new (Z.of_nat c)) in
  let r' := load_state (dump_state r) (enqueue_all l2 r) in
  get_queue r' = map Some l1 /\ get_queue (enqueue_all l3 r') = map Some (last_n c (l1 ++ l3)).
Proof.
  intros A c l1 l2 l3 C L r r'. assert (S : in_step c l1 r) by exact (enqueue_all_step c C l1 [] _ (new_step c)).
  pose proof (restore_step c C l1 l2 r S L) as S'. fold r' in S'. split.
  - rewrite (queue_step c C l1 r' S'). unfold last_n. replace (length l1 - c)%nat with 0%nat by lia. reflexivity.
  - apply (queue_step c C). apply enqueue_all_step; assumption.
Qed.
Print Assumptions C46_restored_partial.

(** With the capacity of the parser, after 20 records and a lookahead of one record. *)
Theorem C46_restored_refuted : exists (l1 : list Z) x, length l1 = 20%nat /\
  let r := enqueue_all l1 (ring_new 20) in
  get_queue r = map Some l1 /\ get_queue (load_state (dump_state r) (enqueue x r)) <> map Some l1.
Proof. exact restored_refuted. Qed.
Print Assumptions C46_restored_refuted.

(** The entry used for the messages, the last one, survives lookaheads shorter than the log. *)
Theorem C46_last_entry : forall (A : Type) c (l1 l2 : list A) x, (0 < c)%nat -> (length l2 < c)%nat ->
  let r := enqueue_all (l1 ++ [x]) (ring_new (Z.of_nat c)) in
  last_entry (load_state (dump_state r) (enqueue_all l2 r)) = Some x.
Proof.
  intros A c l1 l2 x C L r. apply (restore_last c C l1 l2 x r); [|exact L]. exact (enqueue_all_step c C (l1 ++ [x]) [] _ (new_step c)).
Qed.
Print Assumptions C46_last_entry.

Example C46_example : get_queue (enqueue_all [1; 2; 3; 4; 5] (ring_new 3)) = [Some 3; Some 4; Some 5] /\
  get_queue (enqueue_all [1; 2] (ring_new 3)) = [Some 1; Some 2].
Proof. split; reflexivity. Qed.
