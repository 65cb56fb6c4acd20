(** C22-C24: the fields of a record and the variables of a recipe. *)
From Coq Require Import Ascii String ZArith Bool Lia List.
From Coq Require Import Floats.SpecFloat.
From Verif Require Import PyBase PyFloat ModelFortran ModelRecords ModelNum ModelRecipe ModelInterp.
From Verif Require Import SpecFields SpecLibm SpecTape SpecTapeEx SpecInterp SpecInterpEx ProofInterpMap.
Import ListNotations.
Open Scope Z_scope.

(** ** C22 (continued): the fields of a TEXT record *)

(** The fields read from a text are written as the same text. *)
Theorem C22_fields_read_write : forall en fs full s s',
  fills fs (length full) -> NoDup (text_names fs) ->
  (forall x, In x (text_names fs) -> lget x (ps_loops s) = None) ->
  text_read fs full 0 s = (Ok tt, s') ->
  text_write en (scope_of s') fs = Ok full.
Proof. intros en fs full s s' F N L R. exact (text_read_write en fs _ full 0%nat s s' F N L eq_refl R). Qed.
Print Assumptions C22_fields_read_write.

(** The fields written are the fields read. *)
Theorem C22_fields_write_read : forall en sc fs t s s',
  fills fs (length t) -> NoDup (text_names fs) ->
  (forall x, In x (text_names fs) -> lget x (ps_loops s) = None) ->
  text_write en sc fs = Ok t -> text_read fs t 0 s = (Ok tt, s') ->
  forall x len, In (Some x, len) fs ->
    exists p, get_varval (e_depth en) sc true (fst x) (snd x) = Ok (VStr p) /\ seen (scope_of s') (fst x) (snd x) (VStr p).
Proof. intros en sc fs t s s' F N L W R. exact (text_write_read en sc fs _ [] t s s' F eq_refl N L W R). Qed.
Print Assumptions C22_fields_write_read.

(** A string of another length than the recipe demands is not written. *)
Theorem C22_length_checked : forall en sc fs t,
  text_write en sc fs = Ok t ->
  forall x n, In (Some x, Some n) fs ->
    exists p, get_varval (e_depth en) sc true (fst x) (snd x) = Ok (VStr p) /\ length p = n.
Proof. exact text_write_lengths. Qed.
Print Assumptions C22_length_checked.

(** [MAT,MF,MT/ ZSYMAM{11}, ALAB{11}, HEAD[k]]TEXT *)
Definition ex_text : list textfield :=
  [(Some ($"ZSYMAM", []), Some 11%nat); (Some ($"ALAB", []), Some 11%nat); (Some ($"HEAD", [IVar $"k"]), None)].
Definition ex_full : str := $"  26-FE- 56 IAEA     EVAL-DEC22                                   ".
Example C22_fields_example :
  fills ex_text (length ex_full) /\ NoDup (text_names ex_text) /\
  (forall x, In x (text_names ex_text) -> lget x [($"k", 3)] = None) /\
  exists s', text_read ex_text ex_full 0 (ex_state [] [($"k", 3)] []) = (Ok tt, s') /\
    ps_dic s' = [(KStr $"ZSYMAM", VStr $"  26-FE- 56"); (KStr $"ALAB", VStr $" IAEA     E");
                 (KStr $"HEAD", VDict [(KInt 3, VStr $"VAL-DEC22                                   ")])] /\
    text_write ex_wenv (scope_of s') ex_text = Ok ex_full.
Proof.
  split. { apply (fi_next _ 11 _ 55); [lia|]. apply (fi_next _ 11 _ 44); [lia|]. apply fi_last. lia. }
  split. { repeat constructor; cbn; intuition discriminate. }
  split. { intros x [<-|[<-|[<-|[]]]]; reflexivity. }
  eexists. split; [vm_compute; reflexivity|]. split; reflexivity.
Qed.

(** A string without length in the recipe is not checked: one of 70 characters yields a line
    of 79 columns before the line number is added (75 are right). *)
Theorem C22_overlong_refuted : exists f s s' l,
  exec ex_wenv (IText anyspec [(Some ($"HL", []), None)]) s = (Ok tt, s') /\
  ps_dic s = [(KStr $"HL", VStr f); (KStr $"MAT", vint 125); (KStr $"MF", vint 1); (KStr $"MT", vint 451)] /\
  ps_lines s' = [l] /\ length f = 70%nat /\ length l = 79%nat.
Proof.
  exists (repeat "x"%char 70).
  exists (ex_state [(KStr $"HL", VStr (repeat "x"%char 70)); (KStr $"MAT", vint 125); (KStr $"MF", vint 1); (KStr $"MT", vint 451)] [] []).
  eexists. eexists. split; [vm_compute; reflexivity|]. repeat split; reflexivity.
Qed.
Print Assumptions C22_overlong_refuted.

(** ** C23 *)

(** Integers: the value assigned to the unknown variable makes the expression equal to the
    number in the file, for the reader ([zeval]) and on writing. *)
Theorem C23_inverted : forall en e u z s s' v,
  o_all (ps_opts s) = false ->
  unknown_in (seen (scope_of s)) u e -> (forall w, ~ seen (scope_of s) (fst u) (snd u) w) ->
  exact_range (seen (scope_of s)) u e z ->
  map_field en (vint z) e s = (Ok false, s') ->
  seen (scope_of s') (fst u) (snd u) v ->
  zeval (seen (scope_of s')) e z /\
  eval_known (e_depth en) (scope_of s') false false e = Ok (vint z).
Proof. exact field_inverted. Qed.
Print Assumptions C23_inverted.

(** A field that is a variable: any value is assigned as it is. *)
Theorem C23_variable : forall en e x ix v s s',
  variable e x ix -> (forall w, ~ seen (scope_of s) x ix w) ->
  map_field en v e s = (Ok false, s') -> seen (scope_of s') x ix v.
Proof. exact variable_stored. Qed.
Print Assumptions C23_variable.

(** NK*(L[k]+1)-3 with NK=2, k=2 and L[1] known *)
Definition ex_lin : expr := ESub (EMul (ev0 "NK") (EAdd (ev1 "L" "k") (ei 1))) (ei 3).
Definition ex_lin_state : pstate :=
  ex_state [(KStr $"NK", vint 2); (KStr $"L", VDict [(KInt 1, vint 4)])] [($"k", 2)] [].
Example C23_example :
  unknown_in (seen (scope_of ex_lin_state)) ($"L", [IVar $"k"]) ex_lin /\
  (forall w, ~ seen (scope_of ex_lin_state) $"L" [IVar $"k"] w) /\
  exists s', map_field ex_renv (vint 13) ex_lin ex_lin_state = (Ok false, s') /\
    seen (scope_of s') $"L" [IVar $"k"] (vint 7) /\
    ps_dic s' = [(KStr $"NK", vint 2); (KStr $"L", VDict [(KInt 1, vint 4); (KInt 2, vint 7)])].
Proof.
  split. { apply ui_sub; [apply ui_mul; [|apply ui_add]|]; try apply ui_num.
    - eapply ui_var with (z := 2); [left; reflexivity|reflexivity].
    - apply ui_unknown; [left; reflexivity|]. intros v. vm_compute. discriminate. }
  split. { intros w. vm_compute. discriminate. }
  eexists. split; [vm_compute; reflexivity|]. split; reflexivity.
Qed.

(** If the coefficient of the unknown variable is 0, an exception is raised although the
    number in the file is the only possible one. *)
Theorem C23_zero_coefficient_refuted : exists e u s,
  unknown_in (seen (scope_of s)) u e /\ (forall w, ~ seen (scope_of s) (fst u) (snd u) w) /\
  (forall x, zeval (assume u (vint x) (seen (scope_of s))) e 0) /\
  map_field ex_renv (vint 0) e s = (Err ZeroDivisionError, s).
Proof.
  exists (EMul (ev0 "NK") (ev0 "X")), ($"X", []), (ex_state [(KStr $"NK", vint 0)] [] []).
  split. { apply ui_mul.
    - eapply ui_var with (z := 0); [left; reflexivity|reflexivity].
    - apply ui_unknown; [left; reflexivity|]. intros v. vm_compute. discriminate. }
  split. { intros w. vm_compute. discriminate. }
  split. { intros x. apply (zv_mul _ _ _ 0 x); (eapply zv_var; [left; reflexivity|]).
    - right. split; [discriminate|reflexivity].
    - left. split; reflexivity. }
  vm_compute. reflexivity.
Qed.
Print Assumptions C23_zero_coefficient_refuted.

(** ... or the field is passed over and the variable gets no value. *)
Theorem C23_unassigned_refuted : exists e u s,
  unknown_in (seen (scope_of s)) u e /\ (forall w, ~ seen (scope_of s) (fst u) (snd u) w) /\
  map_field ex_renv (vint 3) e s = (Ok false, s).
Proof.
  exists (EAdd (EMul (ev0 "NK") (ev0 "X")) (ei 3)), ($"X", []), (ex_state [(KStr $"NK", vint 0)] [] []).
  split. { apply ui_add; [apply ui_mul|apply ui_num].
    - eapply ui_var with (z := 0); [left; reflexivity|reflexivity].
    - apply ui_unknown; [left; reflexivity|]. intros v. vm_compute. discriminate. }
  split. { intros w. vm_compute. discriminate. }
  vm_compute. reflexivity.
Qed.
Print Assumptions C23_unassigned_refuted.

(** Beyond 2^53 the quotient is rounded and a wrong value is assigned without notice. *)
Theorem C23_large_refuted : exists e u z s s' v z',
  unknown_in (seen (scope_of s)) u e /\ (forall w, ~ seen (scope_of s) (fst u) (snd u) w) /\
  map_field ex_renv (vint z) e s = (Ok false, s') /\ seen (scope_of s') (fst u) (snd u) v /\
  zeval (seen (scope_of s')) e z' /\ z' <> z.
Proof.
  exists (ESub (EMul (ei 2) (ev0 "X")) (ei (2 ^ 53 + 1))), ($"X", []), 0, (ex_state [] [] []).
  eexists. exists (vint (2 ^ 52)), (-1).
  split. { apply ui_sub; [apply ui_mul|]; try apply ui_num. apply ui_unknown; [left; reflexivity|]. intros v. vm_compute. discriminate. }
  split. { intros w. vm_compute. discriminate. }
  split. { vm_compute. reflexivity. }
  split. { vm_compute. reflexivity. }
  split. { change (-1) with (2 * 2 ^ 52 - (2 ^ 53 + 1)). apply zv_sub; [apply zv_mul|]; try apply zv_num.
    eapply zv_var; [left; reflexivity|vm_compute; reflexivity]. }
  discriminate.
Qed.
Print Assumptions C23_large_refuted.

(** ** C24 *)

(** Integer expressions. *)
Theorem C24_integer_checked : forall en fs s s' src e z,
  map_read en fs s = (Ok tt, s') -> In (src, e) fs ->
  zeval (seen (scope_of s)) e z -> accepted (ps_opts s) e src (vint z).
Proof. exact integer_checked. Qed.
Print Assumptions C24_integer_checked.

(** Any expression the reader can evaluate. *)
Theorem C24_known_checked : forall en fs s s' src e c,
  map_read en fs s = (Ok tt, s') -> In (src, e) fs ->
  eval_known (e_depth en) (scope_of s) false true e = Ok c -> no_array c ->
  accepted (ps_opts s) e src c.
Proof. exact known_checked. Qed.
Print Assumptions C24_known_checked.

(** A variable occurring in several fields, whichever of them is read first. *)
Theorem C24_repeated_checked : forall en fs s s' src e x ix v,
  map_read en fs s = (Ok tt, s') -> In (src, e) fs ->
  variable e x ix -> no_array src -> seen (scope_of s') x ix v -> (forall a, v <> VExpr a) ->
  v = src \/ accepted (ps_opts s) e src v.
Proof. exact repeated_checked. Qed.
Print Assumptions C24_repeated_checked.

(** Reading a CONT or HEAD record. *)
Theorem C24_record_checked : forall en head cs f s s',
  e_write en = false -> ps_look s = None ->
  exec en (ICont head cs f) s = (Ok tt, s') ->
  exists o r c, skip_blank_lines (ps_lines s) (ps_ofs s) = Ok o /\
    read_cont (e_ro en) (ps_lines s) o = Ok (r, c, S o) /\
    forall src e, In (src, e) (combine (cont_vals r) (fields_list f)) ->
      (forall z, zeval (seen (scope_of s)) e z -> accepted (ps_opts s) e src (vint z)) /\
      (forall v, eval_known (e_depth en) (scope_of s) false true e = Ok v -> no_array v -> accepted (ps_opts s) e src v).
Proof. exact cont_checked. Qed.
Print Assumptions C24_record_checked.

(** What the options cover is not rejected. *)
Theorem C24_accepted_passes : forall en e src a b s,
  o_fuzzy (ps_opts s) = false -> src = VNum a ->
  eval_expr (e_depth en) (scope_of s) false (negb (o_all (ps_opts s))) true e = Ok (VNum b, vint 0, None) ->
  accepted (ps_opts s) e src (VNum b) -> map_field en src e s = (Ok false, s).
Proof. exact accepted_passes. Qed.
Print Assumptions C24_accepted_passes.

(** the loop record of [ex_body] with k=1: the field NK is known and NK=2 in the file *)
Definition ex_loop_rec : instr :=
  ICont false anyspec (f6 (ev1 "E" "k") ef0 (EAdd (ev1 "L" "k") (ei 1)) (ei 0) (ev0 "NK") (ei 0)).
Definition ex_loop_state (nk : Z) : pstate := ex_state [(KStr $"NK", vint nk)] [($"k", 1)] (tl ex_slines).
Example C24_example :
  (exists s', exec ex_renv ex_loop_rec (ex_loop_state 2) = (Ok tt, s')) /\
  zeval (seen (scope_of (ex_loop_state 2))) (ev0 "NK") 2 /\
  fst (exec ex_renv ex_loop_rec (ex_loop_state 3)) = Err NumberMismatchError.
Proof.
  split. { eexists. vm_compute. reflexivity. }
  split. { eapply zv_var; [left; reflexivity|reflexivity]. }
  vm_compute. reflexivity.
Qed.
