(** Examples and counterexamples of the interpreter. *)
From Coq Require Import Ascii String ZArith QArith Bool Lia List.
From Coq Require Import Floats.SpecFloat.
From Verif Require Import PyBase PyFloat ModelFortran ModelRecords ModelTape ModelNum ModelRecipe ModelInterp ModelParser.
From Verif Require Import SpecFields SpecLibm SpecTape SpecTapeEx SpecInterp SpecInterpEx ProofTape ProofInterp.
Import ListNotations.
Open Scope Z_scope.

(** ** C08, C28 *)
Lemma history_refuted : exists c lines d o,
  parse ex_look_parser false None None strict_opts lines = (Err NumberMismatchError, strict_opts) /\
  parse ex_look_parser false None None (after_calls ex_look_parser strict_opts [c]) lines = (Ok d, o) /\
  c_nofail c = false.
Proof.
  exists {| c_nofail := false; c_exclude := None; c_include := None; c_lines := ex_tape_of [(1, ex_garbage)] |},
    (ex_tape_of [(1, ex_mismatch)]).
  eexists. eexists. split; [vm_compute; reflexivity|]. split; [vm_compute; reflexivity | reflexivity].
Qed.

Lemma other_sections_refuted : exists lines1 lines2 d1 d2 o1 o2 v,
  parse (ex_parser [(3, ROne ex_look)]) true None None strict_opts lines1 = (Ok d1, o1) /\
  parse (ex_parser [(3, ROne ex_look)]) true None None strict_opts lines2 = (Ok d2, o2) /\
  (exists s1 s2 ls, split_sections default_ro lines1 = Ok s1 /\ split_sections default_ro lines2 = Ok s2 /\
     holds s1 3 2 ls /\ holds s2 3 2 ls) /\
  holds d2 3 2 (Parsed v) /\ forall x, holds d1 3 2 x -> exists ls, x = Raw ls.
Proof.
  exists (ex_tape_of [(1, ex_good); (2, map (fun l => ex_line (firstn 66 l) 125 3 2) ex_mismatch)]),
    (ex_tape_of [(1, ex_garbage); (2, map (fun l => ex_line (firstn 66 l) 125 3 2) ex_mismatch)]).
  do 5 eexists. split; [vm_compute; reflexivity|]. split; [vm_compute; reflexivity|]. split; [|split].
  - do 3 eexists. split; [vm_compute; reflexivity|]. split; [vm_compute; reflexivity|].
    split; (eexists; split; [right; left; reflexivity | right; left; reflexivity]).
  - eexists. split; [right; left; reflexivity | right; left; reflexivity].
  - intros x (sub & I1 & I2). destruct I1 as [I1|[I1|[]]].
    + discriminate I1.
    + injection I1 as <-. destruct I2 as [I2|[I2|[]]]; [discriminate I2|]. injection I2 as <-. eexists. reflexivity.
Qed.

Lemma independent_example : strict (p_ro ex_look_parser) /\
  exists d v ls s, parse ex_look_parser false None None strict_opts (ex_tape_of [(1, ex_good); (2, ex_sec2)]) = (Ok d, strict_opts) /\
  split_sections default_ro (ex_tape_of [(1, ex_good); (2, ex_sec2)]) = Ok s /\ holds s 3 2 ls /\ holds d 3 2 (Parsed v) /\
  exists d' s', parse ex_look_parser false None (Some [SMfMt 3 2]) strict_opts (ex_tape_of [(2, ex_sec2)]) = (Ok d', strict_opts) /\
  split_sections default_ro (ex_tape_of [(2, ex_sec2)]) = Ok s' /\ holds s' 3 2 ls /\ holds d' 3 2 (Parsed v).
Proof.
  split; [repeat split|]. do 4 eexists. split; [vm_compute; reflexivity|]. split; [vm_compute; reflexivity|].
  split; [eexists; split; [right; left; reflexivity | right; left; reflexivity]|].
  split; [eexists; split; [right; left; reflexivity | right; left; reflexivity]|].
  do 2 eexists. split; [vm_compute; reflexivity|]. split; [vm_compute; reflexivity|].
  split; (eexists; split; [right; left; reflexivity | left; reflexivity]).
Qed.

Lemma lookahead_refuted : exists s s',
  test_branch ex_renv (match ex_look_if with IIf b _ _ => b | _ => Branch (CRel REq (ei 0) (ei 0)) None BNil end) s =
    (Err InvalidFloatError, s') /\ ps_look s = None /\ o_all (ps_opts s) = false /\ o_all (ps_opts s') = true.
Proof.
  exists (reset_state strict_opts (tl ex_garbage) []). eexists. split; [vm_compute; reflexivity|].
  split; [reflexivity|]. split; reflexivity.
Qed.

Lemma lookahead_example : exists s, ps_dic s <> [] /\
  test_branch ex_renv (match ex_look_if with IIf b _ _ => b | _ => Branch (CRel REq (ei 0) (ei 0)) None BNil end) s =
    (Ok true, s).
Proof.
  exists (reset_state strict_opts (tl ex_good) [(KStr $"NK", vint 2)]). split; [discriminate | vm_compute; reflexivity].
Qed.

(** ** C34 *)
Lemma truncated_refuted : exists lines o d, split_sections default_ro lines = Ok d /\
  parse (ex_parser [(3, ROne ex_list)]) true None None strict_opts lines = (Err IndexError, o).
Proof.
  exists (ex_tape_of [(1, ex_truncated)]). eexists. eexists. split; vm_compute; reflexivity.
Qed.

(** ** C25 *)
Lemma lenient_opts_example : lenient strict_opts lax_opts /\ strict_opts <> lax_opts /\
  exists d, parse ex_look_parser false None None strict_opts (ex_tape_of [(1, ex_good); (2, ex_sec2)]) = (Ok d, strict_opts).
Proof.
  split; [repeat split; auto|]. split; [discriminate|]. eexists. vm_compute. reflexivity.
Qed.

(** with nofail the result does change: a section that was returned verbatim is parsed *)
Lemma lenient_nofail_refuted : exists lines d d' o', lenient strict_opts lax_opts /\
  parse ex_look_parser true None None strict_opts lines = (Ok d, strict_opts) /\
  parse ex_look_parser true None None lax_opts lines = (Ok d', o') /\ d <> d'.
Proof.
  exists (ex_tape_of [(1, ex_zero)]). do 3 eexists. split; [repeat split; auto|].
  split; [vm_compute; reflexivity|]. split; [vm_compute; reflexivity|]. discriminate.
Qed.

(** ** C26, C27, C29, C30 *)
Lemma loop_example : exists s s' a b, ps_look s = None /\ has_int ex_renv s (ei 1) a /\ has_int ex_renv s (ev0 "NK") b /\
  a < b /\ lget $"k" (ps_loops s) = None /\ exec ex_renv ex_loop s = (Ok tt, s').
Proof.
  exists (ex_state [(KStr $"NK", vint 2)] [] (tl ex_slines)). eexists. exists 1, 2.
  split; [reflexivity|]. split; [eexists; split; reflexivity|]. split; [eexists; split; reflexivity|].
  split; [reflexivity|]. split; [reflexivity|]. vm_compute. reflexivity.
Qed.

Lemma nested_example : exists s, ps_look s = None /\ has_int ex_renv s (ei 1) 1 /\ has_int ex_renv s (ev0 "NK") 2 /\
  lget $"k" (ps_loops s) = Some 2.
Proof.
  exists (ex_state [(KStr $"NK", vint 2)] [($"k", 2)] []).
  split; [reflexivity|]. split; [eexists; split; reflexivity|]. split; [eexists; split; reflexivity|]. reflexivity.
Qed.

Lemma clause_example : exists s, ps_look s = None /\
  plain_branches (RCons (Branch (CRel RLt (ev0 "LEVEL") (ei 3)) None (blk [ex_sec])) RNil) =
    Some [(CRel RLt (ev0 "LEVEL") (ei 3), blk [ex_sec])] /\
  ~ cond_holds ex_renv (scope_of s) (CRel REq (ev0 "UNDEFINED") (ei 0)) /\
  cond_holds ex_renv (scope_of s) (CRel RLt (ev0 "LEVEL") (ei 3)).
Proof.
  exists (ex_state [(KStr $"LEVEL", vint 2)] [] []). split; [reflexivity|]. split; [reflexivity|]. split.
  - intros (x & y & X & _). discriminate X.
  - exists (vint 2), (vint 3). split; [reflexivity|]. split; [reflexivity|]. reflexivity.
Qed.

Lemma section_example : exists s s', ps_look s = None /\ exec ex_renv ex_sec s = (Ok tt, s') /\
  path_get [KStr $"sub"; KStr $"Q"] (VDict (ps_dic s')) <> None /\
  unrelated [KStr $"sub"] [KStr $"LEVEL"] /\ path_get [KStr $"LEVEL"] (VDict (ps_dic s)) = Some (vint 2).
Proof.
  exists (ex_state [(KStr $"LEVEL", vint 2)] [] (skipn 3 ex_slines)). eexists.
  split; [reflexivity|]. split; [vm_compute; reflexivity|]. split; [discriminate|]. split; [|reflexivity].
  split; intros [c H]; discriminate H.
Qed.

Lemma lookup_example : let sc := {| sc_dic := [(KStr $"Q", vint 1)];
    sc_up := [{| fr_dic := [(KStr $"LEVEL", vint 2); (KStr $"sub", VDict [])]; fr_name := $"sub"; fr_idx := [] |}]; sc_loops := [] |} in
  lget $"LEVEL" (sc_loops sc) = None /\ first_with $"LEVEL" (views (sc_dic sc) (sc_up sc)) (vint 2) /\
  dget (KStr $"LEVEL") (sc_dic sc) = None.
Proof.
  split; [reflexivity|]. split; [|reflexivity]. apply fw_next; [reflexivity|]. apply fw_here. reflexivity.
Qed.

Lemma covered_example : e_write ex_renv = false /\ no_send_block ex_body = true /\
  (forall l mat mf mt, In l ex_slines -> carries (r_width (e_ro ex_renv)) l mat mf mt -> mt <> 0) /\
  exists s', run_section ex_renv (then_send ex_body) (reset_state strict_opts (ex_slines ++ [ex_send]) []) = (Ok tt, s') /\
    length (ps_log s') = 5%nat.
Proof.
  split; [reflexivity|]. split; [reflexivity|]. split.
  - intros l mat mf mt I C.
    assert (E : read_ctrl default_ro l = Ok {| MAT := 125; MF := 3; MT := 1 |}).
    { repeat (destruct I as [<-|I]; [vm_compute; reflexivity|]). destruct I. }
    apply (proj2 (carries_iff default_ro _ _ _ _)) in C. rewrite E in C. injection C as _ _ <-. discriminate.
  - eexists. split; [vm_compute; reflexivity | reflexivity].
Qed.
