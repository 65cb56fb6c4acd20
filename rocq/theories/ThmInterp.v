(** C08, C25-C30, C34, C47: the recipe interpreter and the parser object. *)
From Coq Require Import Ascii String ZArith QArith Bool Lia List.
From Verif Require Import PyBase PyFloat ModelFortran ModelRecords ModelTape ModelNum ModelRecipe ModelInterp ModelParser.
From Verif Require Import SpecFields SpecLibm SpecTape SpecTapeEx SpecInterp SpecInterpEx.
From Verif Require Import ProofInterp ProofInterpFrame ProofInterpCtl ProofInterpSec ProofInterpMono ProofInterpOpt ProofInterpGrow ProofInterpEx.
Import ListNotations.
Open Scope Z_scope.

(** ** C08 *)
(** The value of a section depends only on its lines, the recipes and the options: it is
    the same on two tapes with these lines, whatever else they contain and whatever is
    selected. With nofail this needs recipes without lookahead. *)
Theorem C08_sections_independent : forall p o nf1 nf2 exc1 inc1 exc2 inc2 lines1 lines2 d1 d2 o1 o2 s1 s2 mf mt ls v1 v2,
  strict (p_ro p) ->
  (nf1 = false /\ nf2 = false \/
   forall mf mt b, find_recipe (p_recipes p) mf mt = Some b -> no_look_block b = true) ->
  parse p nf1 exc1 inc1 o lines1 = (Ok d1, o1) -> parse p nf2 exc2 inc2 o lines2 = (Ok d2, o2) ->
  split_sections (p_ro p) lines1 = Ok s1 -> split_sections (p_ro p) lines2 = Ok s2 ->
  holds s1 mf mt ls -> holds s2 mf mt ls ->
  holds d1 mf mt (Parsed v1) -> holds d2 mf mt (Parsed v2) -> v1 = v2.
Proof. exact sections_independent. Qed.
Print Assumptions C08_sections_independent.

Example C08_example : strict (p_ro ex_look_parser) /\
  exists d v ls s, parse ex_look_parser false None None strict_opts (ex_tape_of [(1, ex_good); (2, ex_sec2)]) = (Ok d, strict_opts) /\
  split_sections default_ro (ex_tape_of [(1, ex_good); (2, ex_sec2)]) = Ok s /\ holds s 3 2 ls /\ holds d 3 2 (Parsed v) /\
  exists d' s', parse ex_look_parser false None (Some [SMfMt 3 2]) strict_opts (ex_tape_of [(2, ex_sec2)]) = (Ok d', strict_opts) /\
  split_sections default_ro (ex_tape_of [(2, ex_sec2)]) = Ok s' /\ holds s' 3 2 ls /\ holds d' 3 2 (Parsed v).
Proof. exact independent_example. Qed.

(** Earlier calls on the parser object leave it as it was, if they succeeded (without nofail) ... *)
Theorem C08_history_of_successes : forall p cs o,
  (forall pre c, is_prefix (pre ++ [c]) cs -> c_nofail c = false /\
     exists d, fst (parse p (c_nofail c) (c_exclude c) (c_include c) (after_calls p o pre) (c_lines c)) = Ok d) ->
  after_calls p o cs = o.
Proof. exact history_ok. Qed.
Print Assumptions C08_history_of_successes.

(** ... and in any case if no recipe has a lookahead option. *)
Theorem C08_history : forall p cs o,
  (forall mf mt b, find_recipe (p_recipes p) mf mt = Some b -> no_look_block b = true) ->
  after_calls p o cs = o.
Proof. exact no_look_history. Qed.
Print Assumptions C08_history.

(** With any recipes and whatever the earlier calls did, also if they failed: what a new parser object accepts is
    accepted with the same result. *)
Theorem C08_history_accepts : forall p cs o exc inc lines d o1, parse p false exc inc o lines = (Ok d, o1) ->
  exists o2, parse p false exc inc (after_calls p o cs) lines = (Ok d, o2).
Proof. intros p cs o exc inc lines d o1 H. eexists. exact (history_accepts p cs o exc inc lines d o1 H). Qed.
Print Assumptions C08_history_accepts.
Example C08_history_accepts_example : exists c d,
  after_calls ex_look_parser strict_opts [c] <> strict_opts /\
  parse ex_look_parser false None None strict_opts (ex_tape_of [(1, ex_good)]) = (Ok d, strict_opts) /\
  fst (parse ex_look_parser false None None (after_calls ex_look_parser strict_opts [c]) (ex_tape_of [(1, ex_good)])) = Ok d.
Proof.
  exists {| c_nofail := false; c_exclude := None; c_include := None; c_lines := ex_tape_of [(1, ex_garbage)] |}.
  eexists. split; [vm_compute; discriminate|]. split; vm_compute; reflexivity.
Qed.

(** But a failed call can make the same parser object accept files it rejected before. *)
Theorem C08_history_refuted : exists c lines d o,
  parse ex_look_parser false None None strict_opts lines = (Err NumberMismatchError, strict_opts) /\
  parse ex_look_parser false None None (after_calls ex_look_parser strict_opts [c]) lines = (Ok d, o) /\
  c_nofail c = false.
Proof. exact history_refuted. Qed.
Print Assumptions C08_history_refuted.

(** With nofail, a section of the same tape has this effect on the following ones. *)
Theorem C08_other_sections_refuted : exists lines1 lines2 d1 d2 o1 o2 v,
  parse (ex_parser [(3, ROne ex_look)]) true None None strict_opts lines1 = (Ok d1, o1) /\
  parse (ex_parser [(3, ROne ex_look)]) true None None strict_opts lines2 = (Ok d2, o2) /\
  (exists s1 s2 ls, split_sections default_ro lines1 = Ok s1 /\ split_sections default_ro lines2 = Ok s2 /\
     holds s1 3 2 ls /\ holds s2 3 2 ls) /\
  holds d2 3 2 (Parsed v) /\ forall x, holds d1 3 2 x -> exists ls, x = Raw ls.
Proof. exact other_sections_refuted. Qed.
Print Assumptions C08_other_sections_refuted.

(** ** C25 *)
Theorem C25_section_monotone : forall en b o o' lines d o1, lenient o o' ->
  parse_recipe en b o lines = (Ok d, o1) ->
  exists o2, parse_recipe en b o' lines = (Ok d, o2) /\ lenient o1 o2.
Proof. exact section_monotone. Qed.
Print Assumptions C25_section_monotone.

Theorem C25_parse_monotone : forall p exc inc o o' lines d o1, lenient o o' ->
  parse p false exc inc o lines = (Ok d, o1) -> parse p false exc inc o' lines = (Ok d, o').
Proof. exact parse_monotone. Qed.
Print Assumptions C25_parse_monotone.

Example C25_example : lenient strict_opts lax_opts /\ strict_opts <> lax_opts /\
  exists d, parse ex_look_parser false None None strict_opts (ex_tape_of [(1, ex_good); (2, ex_sec2)]) = (Ok d, strict_opts).
Proof. exact lenient_opts_example. Qed.

(** With nofail the result may change: a section that was returned verbatim is parsed. *)
Theorem C25_nofail_refuted : exists lines d d' o', lenient strict_opts lax_opts /\
  parse ex_look_parser true None None strict_opts lines = (Ok d, strict_opts) /\
  parse ex_look_parser true None None lax_opts lines = (Ok d', o') /\ d <> d'.
Proof. exact lenient_nofail_refuted. Qed.
Print Assumptions C25_nofail_refuted.

(** ** C26 *)
Theorem C26_range : forall en v e1 e2 body s a b, ps_look s = None ->
  has_int en s e1 a -> has_int en s e2 b -> lget v (ps_loops s) = None ->
  exists r s1, iterates v (exec_block en body) b a s r s1 /\
    match r with
    | Ok _ => exec en (IFor v e1 e2 body) s = (r, set_loops (ps_loops s) s1)
    | Err _ => exec en (IFor v e1 e2 body) s = (r, s1)
    end.
Proof. exact loop_exact. Qed.
Print Assumptions C26_range.

Example C26_example : exists s s' a b, ps_look s = None /\ has_int ex_renv s (ei 1) a /\ has_int ex_renv s (ev0 "NK") b /\
  a < b /\ lget $"k" (ps_loops s) = None /\ exec ex_renv ex_loop s = (Ok tt, s').
Proof. exact loop_example. Qed.

Theorem C26_same_variable : forall en v e1 e2 body s a b i, ps_look s = None ->
  has_int en s e1 a -> has_int en s e2 b -> lget v (ps_loops s) = Some i ->
  exec en (IFor v e1 e2 body) s = (Err LoopVariableError, s).
Proof. exact loop_nested. Qed.
Print Assumptions C26_same_variable.

Example C26_same_variable_example : exists s, ps_look s = None /\ has_int ex_renv s (ei 1) 1 /\ has_int ex_renv s (ev0 "NK") 2 /\
  lget $"k" (ps_loops s) = Some 2.
Proof. exact nested_example. Qed.

(** ** C27 *)
Theorem C27_first_branch : forall en c b more els s l, ps_look s = None -> plain_branches more = Some l ->
  forall res s', exec en (IIf (Branch c None b) more els) s = (res, s') ->
  (exists b', selects en (scope_of s) ((c, b) :: l) els b' /\ exec_block en b' s = (res, s')) \/
  (exists e, select_raises en (scope_of s) ((c, b) :: l) e /\ res = Err e /\ s' = s).
Proof. exact clause_select. Qed.
Print Assumptions C27_first_branch.

Example C27_example : exists s, ps_look s = None /\
  plain_branches (RCons (Branch (CRel RLt (ev0 "LEVEL") (ei 3)) None (blk [ex_sec])) RNil) =
    Some [(CRel RLt (ev0 "LEVEL") (ei 3), blk [ex_sec])] /\
  ~ cond_holds ex_renv (scope_of s) (CRel REq (ev0 "UNDEFINED") (ei 0)) /\
  cond_holds ex_renv (scope_of s) (CRel RLt (ev0 "LEVEL") (ei 3)).
Proof. exact clause_example. Qed.

(** ** C28 *)
Theorem C28_no_trace : forall en c la body s t s',
  test_branch en (Branch c la body) s = (Ok t, s') -> s' = s.
Proof. exact lookahead_no_trace. Qed.
Print Assumptions C28_no_trace.

Example C28_example : exists s, ps_dic s <> [] /\
  test_branch ex_renv (match ex_look_if with IIf b _ _ => b | _ => Branch (CRel REq (ei 0) (ei 0)) None BNil end) s =
    (Ok true, s).
Proof. exact lookahead_example. Qed.

(** A failing lookahead leaves the parser ignoring all mismatches. *)
Theorem C28_failing_refuted : exists s s',
  test_branch ex_renv (match ex_look_if with IIf b _ _ => b | _ => Branch (CRel REq (ei 0) (ei 0)) None BNil end) s =
    (Err InvalidFloatError, s') /\ ps_look s = None /\ o_all (ps_opts s) = false /\ o_all (ps_opts s') = true.
Proof. exact lookahead_refuted. Qed.
Print Assumptions C28_failing_refuted.

(** ** C29 *)
(** [s1] is the state in which the body starts, [s2] the one in which it ends, [inner] the
    section's dictionary afterwards. *)
Theorem C29_section : forall en x ix tl body s s', ps_look s = None ->
  exec en (ISection (x, ix) tl body) s = (Ok tt, s') ->
  exists idcs inner s1 s2,
    mapM (get_indexvalue (ps_loops s)) ix = Ok idcs /\
    (forall k, ~ working_key k -> dget k (ps_dic s1) =
       match path_get (KStr x :: map KInt idcs) (VDict (ps_dic s)) with
       | Some (VDict d) => dget k d | _ => None end) /\
    exec_block en body s1 = (Ok tt, s2) /\
    path_get (KStr x :: map KInt idcs) (VDict (ps_dic s')) = Some (VDict inner) /\
    (forall k, ~ working_key k -> ~ abbreviation (ps_dic s2) k -> dget k inner = dget k (ps_dic s2)) /\
    (forall q, unrelated (KStr x :: map KInt idcs) q ->
       path_get q (VDict (ps_dic s')) = path_get q (VDict (ps_dic s))) /\
    ps_loops s' = ps_loops s /\ ps_up s' = ps_up s.
Proof. exact section_scope. Qed.
Print Assumptions C29_section.

Example C29_section_example : exists s s', ps_look s = None /\ exec ex_renv ex_sec s = (Ok tt, s') /\
  path_get [KStr $"sub"; KStr $"Q"] (VDict (ps_dic s')) <> None /\
  unrelated [KStr $"sub"] [KStr $"LEVEL"] /\ path_get [KStr $"LEVEL"] (VDict (ps_dic s)) = Some (vint 2).
Proof. exact section_example. Qed.

Theorem C29_outwards : forall sc x v, lget x (sc_loops sc) = None ->
  (get_raw sc true x [] = Ok v <-> first_with x (views (sc_dic sc) (sc_up sc)) v).
Proof. exact lookup_outwards. Qed.
Print Assumptions C29_outwards.

Theorem C29_local : forall sc x v, lget x (sc_loops sc) = None ->
  (get_raw sc false x [] = Ok v <-> dget (KStr x) (sc_dic sc) = Some v).
Proof. exact lookup_local. Qed.
Print Assumptions C29_local.

Example C29_lookup_example : let sc := {| sc_dic := [(KStr $"Q", vint 1)];
    sc_up := [{| fr_dic := [(KStr $"LEVEL", vint 2); (KStr $"sub", VDict [])]; fr_name := $"sub"; fr_idx := [] |}]; sc_loops := [] |} in
  lget $"LEVEL" (sc_loops sc) = None /\ first_with $"LEVEL" (views (sc_dic sc) (sc_up sc)) (vint 2) /\
  dget (KStr $"LEVEL") (sc_dic sc) = None.
Proof. exact lookup_example. Qed.

(** ** C30 *)
(** [last] is the SEND record parse() appends; blank lines may be skipped. *)
Theorem C30_covered : forall en b o body last s',
  e_write en = false -> no_send_block b = true ->
  (forall l mat mf mt, In l body -> carries (r_width (e_ro en)) l mat mf mt -> mt <> 0) ->
  run_section en (then_send b) (reset_state o (body ++ [last]) []) = (Ok tt, s') ->
  forall i l, nth_error (body ++ [last]) i = Some l ->
    (times_read (ps_log s') i <= 1)%nat /\ (~ blank l -> times_read (ps_log s') i = 1%nat).
Proof. exact section_covered. Qed.
Print Assumptions C30_covered.

Example C30_example : e_write ex_renv = false /\ no_send_block ex_body = true /\
  (forall l mat mf mt, In l ex_slines -> carries (r_width (e_ro ex_renv)) l mat mf mt -> mt <> 0) /\
  exists s', run_section ex_renv (then_send ex_body) (reset_state strict_opts (ex_slines ++ [ex_send]) []) = (Ok tt, s') /\
    length (ps_log s') = 5%nat.
Proof. exact covered_example. Qed.

(** ** C34 *)
(** An IndexError escapes although nofail is set. *)
Theorem C34_other_exceptions_refuted : exists lines o d, split_sections default_ro lines = Ok d /\
  parse (ex_parser [(3, ROne ex_list)]) true None None strict_opts lines = (Err IndexError, o).
Proof. exact truncated_refuted. Qed.
Print Assumptions C34_other_exceptions_refuted.
