(** C32 and C33: writing a section from a dictionary. *)
From Coq Require Import Ascii String ZArith Bool Lia List.
From Coq Require Import Floats.SpecFloat.
From Verif Require Import PyBase PyFloat ModelFortran ModelRecords ModelNum ModelRecipe ModelInterp.
From Verif Require Import SpecFields SpecLibm SpecTape SpecTapeEx SpecInterp SpecInterpEx ProofInterpWrite.
Import ListNotations.
Open Scope Z_scope.

(** ** C32 *)

(** A record is written only if all variables its fields need are in the open section (or
    are loop counters). *)
Theorem C32_all_present : forall en i s s',
  e_write en = true -> ps_look s = None -> exec en i s = (Ok tt, s') ->
  forall e x ix, In e (open_fields i) -> needs (scope_of s) e x ix -> exists v, seen (scope_of s) x ix v.
Proof. exact record_needs. Qed.
Print Assumptions C32_all_present.

(** So is an element of a list ... *)
Theorem C32_element_present : forall en e vals pos s r s',
  e_write en = true -> list_item en (LExpr e) (vals, pos) s = (Ok r, s') ->
  s' = s /\ (exists v, eval_known (e_depth en) (scope_of s) false false e = Ok (VNum v) /\ r = (vals ++ [v], S pos)) /\
  forall x ix, needs (scope_of s) e x ix -> exists v, seen (scope_of s) x ix v.
Proof. exact element_needs. Qed.
Print Assumptions C32_element_present.

(** ... and the columns of a table in a section of their own. *)
Theorem C32_table_present : forall en u es s vs s',
  in_section en (Some u) (map_write en es) s = (Ok vs, s') ->
  exists s1, open_section en u s = (Ok tt, s1) /\
    forall e x ix, In e es -> needs (scope_of s1) e x ix -> exists v, seen (scope_of s1) x ix v.
Proof. exact section_needs. Qed.
Print Assumptions C32_table_present.

(** What is written are the values of the fields. *)
Theorem C32_values : forall en head cs f s s',
  e_write en = true -> ps_look s = None -> exec en (ICont head cs f) s = (Ok tt, s') ->
  exists vs r c ls,
    Forall2 (fun e v => eval_known (e_depth en) (scope_of s) false false e = Ok v)
      [f_c1 f; f_c2 f; f_l1 f; f_l2 f; f_n1 f; f_n2 f] vs /\
    cont_of vs = Ok r /\ write_cont (e_wo en) r c = Ok ls /\
    ps_lines s' = ps_lines s ++ ls /\ ps_dic s' = ps_dic s.
Proof. exact cont_values. Qed.
Print Assumptions C32_values.

(** The first absent variable is reported. The record [i] follows the instructions [b],
    which were executed; the fields before [e] have values. *)
Theorem C32_reported : forall en b i post o mf mt d s1 cs es pre e fpost x ix vs,
  e_write en = true ->
  dget (KStr $"MF") d = Some (vint mf) -> dget (KStr $"MT") d = Some (vint mt) ->
  exec_block en b (set_dic (init_working d) (reset_state o [] [])) = (Ok tt, s1) ->
  first_fields i = Some (cs, es) -> check_spec_write cs s1 = (Ok tt, s1) ->
  es = pre ++ e :: fpost -> mapM (eval_known (e_depth en) (scope_of s1) false false) pre = Ok vs ->
  variable e x ix -> lget x (ps_loops s1) = None -> dget (KStr x) (ps_dic s1) = None ->
  fst (write_recipe en true (bapp b (BCons i post)) o mf mt d) = Err (VariableNotFoundError x).
Proof. exact write_absent. Qed.
Print Assumptions C32_reported.

(** AWR and Q are absent *)
Definition ex_wdict (l : dict) : dict :=
  [(KStr $"MAT", vint 125); (KStr $"MF", vint 3); (KStr $"MT", vint 1); (KStr $"ZA", vint 1001)] ++ l.
Definition ex_full : dict :=
  ex_wdict [(KStr $"AWR", vint 1); (KStr $"LEVEL", vint 2); (KStr $"NK", vint 1);
            (KStr $"E", VDict [(KInt 1, vint 7)]); (KStr $"L", VDict [(KInt 1, vint 4)]);
            (KStr $"sub", VDict [(KStr $"Q", vint 9)])].
Definition ex_wstate (d : dict) : pstate := set_dic (init_working d) (reset_state strict_opts [] []).
Example C32_example :
  (exists ls c d, write_recipe ex_wenv true ex_body strict_opts 3 1 ex_full = (Ok (ls, c), d) /\ length ls = 3%nat) /\
  (exists s1, exec_block ex_wenv BNil (ex_wstate (ex_wdict [])) = (Ok tt, s1) /\
    first_fields ex_head_rec = Some (anyspec, [ev0 "ZA"] ++ ev0 "AWR" :: [ei 0; ev0 "LEVEL"; ev0 "NK"; ei 0]) /\
    check_spec_write anyspec s1 = (Ok tt, s1) /\
    mapM (eval_known (e_depth ex_wenv) (scope_of s1) false false) [ev0 "ZA"] = Ok [vint 1001] /\
    lget $"AWR" (ps_loops s1) = None /\ dget (KStr $"AWR") (ps_dic s1) = None) /\
  fst (write_recipe ex_wenv true ex_body strict_opts 3 1 (ex_wdict [])) = Err (VariableNotFoundError $"AWR").
Proof.
  split. { do 3 eexists. vm_compute. split; reflexivity. }
  split. { eexists. split; [reflexivity|]. repeat split. }
  vm_compute. reflexivity.
Qed.

(** With explain_missing_variable=False the exception is an UnboundLocalError. *)
Theorem C32_unexplained_refuted : exists en b o d,
  e_write en = true /\ dget (KStr $"AWR") d = None /\
  fst (write_recipe en true b o 3 1 d) = Err (VariableNotFoundError $"AWR") /\
  fst (write_recipe en false b o 3 1 d) = Err NameError.
Proof. exists ex_wenv, ex_body, strict_opts, (ex_wdict []). repeat split; vm_compute; reflexivity. Qed.
Print Assumptions C32_unexplained_refuted.

(** ** C33 *)

(** After a section was written the dictionary holds what it held before, and the numbers
    MF and MT if they were absent. *)
Theorem C33_kept : forall en explain b o mf mt d r d',
  e_write en = true -> clean (VDict d) ->
  write_recipe en explain b o mf mt d = (Ok r, d') ->
  exists extra, d' = d ++ extra /\
    (forall k v, In (k, v) extra -> (k = KStr $"MF" /\ v = vint mf) \/ (k = KStr $"MT" /\ v = vint mt)) /\
    (dget (KStr $"MF") d <> None -> dget (KStr $"MT") d <> None -> extra = []).
Proof. exact write_keeps. Qed.
Print Assumptions C33_kept.

Example C33_example : clean (VDict ex_full) /\
  exists r, write_recipe ex_wenv true ex_body strict_opts 3 1 ex_full = (Ok r, ex_full).
Proof.
  split; [|eexists; vm_compute; reflexivity].
  apply cl_dict.
  - intros k [->|[->| ->]]; reflexivity.
  - intros k v H. unfold ex_full, ex_wdict in H. cbn [app dget] in H.
    repeat (destruct (key_eqb _ _); [injection H as <-; try (apply cl_other; discriminate); apply cl_dict|]); try discriminate H.
    all: try (intros k' [->|[->| ->]]; reflexivity).
    all: intros k' v' H; cbn [dget] in H; destruct (key_eqb _ _); [injection H as <-; apply cl_other; discriminate|discriminate H].
Qed.

(** After a failure there are entries that were not there before. *)
Theorem C33_failure_refuted : exists en b o d e d',
  e_write en = true /\ clean (VDict d) /\ dget (KStr $"MF") d <> None /\ dget (KStr $"MT") d <> None /\
  write_recipe en true b o 3 1 d = (Err e, d') /\ dget (KStr $"__abbrevs") d = None /\ dget (KStr $"__abbrevs") d' <> None.
Proof.
  exists ex_wenv, ex_body, strict_opts, (ex_wdict []). do 2 eexists. split; [reflexivity|]. split.
  { apply cl_dict.
    - intros k [->|[->| ->]]; reflexivity.
    - intros k v H. unfold ex_wdict in H. cbn [app dget] in H.
      repeat (destruct (key_eqb _ _); [injection H as <-; apply cl_other; discriminate|]). discriminate H. }
  split; [discriminate|]. split; [discriminate|]. split; [vm_compute; reflexivity|]. split; [reflexivity|discriminate].
Qed.
Print Assumptions C33_failure_refuted.
