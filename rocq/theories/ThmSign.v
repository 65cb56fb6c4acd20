(** C55: the control numbers on the lines of written sections. *)
From Coq Require Import Ascii String ZArith Bool Lia List.
From Coq Require Import Floats.SpecFloat.
From Verif Require Import PyBase PyFloat ModelFortran ModelRecords ModelTape ModelNum ModelRecipe ModelInterp ModelParser ModelRecipes ModelRegistry.
From Verif Require Import SpecFields SpecLibm SpecTape SpecTapeEx SpecInterp SpecInterpEx SpecRound SpecKinds SpecSign SpecFile.
From Verif Require Import ProofPyBase ProofFields ProofTape ProofTapeWrite ProofSign ProofSign2 ProofFile2 ProofFileEx ProofRecipe.
Import ListNotations.
Open Scope Z_scope.

(** Whatever the recipe (with one SEND, at its end): the lines of a written section carry the
    MAT of the dictionary, the MF and MT of the place where the dictionary is stored, and the last line is the
    SEND record of this material and file. The dictionary has no working keys, and MAT is
    stored in it only once. *)
Theorem C55_section_signed : forall ro wo blank depth explain b o mf mt d lines c d',
  clean (VDict d) -> one_mat d -> no_send b = true ->
  write_recipe (write_env ro wo blank depth) explain (then_send b) o mf mt d = (Ok (lines, c), d') ->
  exists mat body send, dget (KStr $"MAT") d = Some (vint mat) /\ c = {| MAT := mat; MF := mf; MT := mt |} /\
    lines = body ++ [send] /\ Forall (signed mat mf mt) body /\
    exists zeros, send = zeros ++ ctrl_text mat mf 0 ++ (if w_linenum wo then $"99999" else []).
Proof.
  intros ro wo blank depth explain b o mf mt d lines c d' C O N H.
  destruct (write_ctrl_numbers (write_env ro wo blank depth) _ _ _ _ _ _ _ _ _ eq_refl C O H) as (<- & <- & M).
  destruct (section_signed (write_env ro wo blank depth) _ _ _ _ _ _ _ _ _ eq_refl C O N H) as (body & send & -> & F & S).
  exists (MAT c), body, send. split; [exact M|]. split; [destruct c; reflexivity|]. split; [reflexivity|]. split; [exact F|].
  cbn [e_wo e_blank write_env] in S. unfold write_send, write_end in S. destruct (zerostr_fields wo blank) as [z|]; cbn [bind] in S; [|discriminate].
  injection S as <-. exists z. reflexivity.
Qed.
Print Assumptions C55_section_signed.

(** If no field is wider than its columns, MAT, MF and MT are read from these lines. *)
Theorem C55_control_columns : forall ro wo blank depth explain b o mf mt d lines c d',
  clean (VDict d) -> one_mat d -> no_send b = true -> field_width wo -> r_width ro = w_width wo ->
  write_recipe (write_env ro wo blank depth) explain (then_send b) o mf mt d = (Ok (lines, c), d') ->
  in_columns wo lines -> ctrl_fits c ->
  exists mat body send, dget (KStr $"MAT") d = Some (vint mat) /\ lines = body ++ [send] /\
    Forall (fun l => carries (w_width wo) l mat mf mt) body /\ end_line ro wo $"99999" send mat mf.
Proof.
  intros ro wo blank depth explain b o mf mt d lines c d' C O N W Rw H IC CF.
  destruct (write_ctrl_numbers (write_env ro wo blank depth) _ _ _ _ _ _ _ _ _ eq_refl C O H) as (<- & <- & M).
  destruct (section_signed (write_env ro wo blank depth) _ _ _ _ _ _ _ _ _ eq_refl C O N H) as (body & send & -> & F & S).
  exists (MAT c), body, send. split; [exact M|]. split; [reflexivity|]. split.
  - destruct IC as (body' & send' & E & L & _). apply app_inj_tail in E as [<- <-]. rewrite Forall_forall in *. intros l Hl.
    apply signed_carries; auto.
  - destruct (write_end_line ro wo blank {| MAT := MAT c; MF := MF c; MT := 0 |} $"99999" W Rw) as (l & E & Er).
    { destruct CF as (X1 & X2 & X3). repeat split; cbn; lia. } { reflexivity. } { reflexivity. }
    cbn [e_wo e_blank write_env] in S. unfold write_send in S. rewrite E in S. injection S as <-. exact Er.
Qed.
Print Assumptions C55_control_columns.

(** all recipes of the package *)
Example C55_recipes : forallb (fun r => no_send (snd r)) all_recipes = true.
Proof. vm_compute. reflexivity. Qed.

(** MF=10 with two subsections *)
Definition ex55_sub (q : Z) (extra : dict) : val :=
  VDict ([(KStr $"QM", vint q); (KStr $"QI", vint q); (KStr $"IZAP", vint 1); (KStr $"LFS", vint 0);
         (KStr $"NBT", VList [vint 2]); (KStr $"INT", VList [vint 2]);
         (KStr $"E", VList [vint 1; vint 2]); (KStr $"sigma", VList [vint 3; vint 4])] ++ extra).
Definition ex55 (extra : dict) : dict :=
  [(KStr $"MAT", vint 125); (KStr $"ZA", vint 1001); (KStr $"AWR", vint 1); (KStr $"LIS", vint 0); (KStr $"NS", vint 2);
   (KStr $"subsection", VDict [(KInt 1, ex55_sub 7 []); (KInt 2, ex55_sub 8 extra)])].
Definition ex55_lines (extra : dict) : list str :=
  match write_recipe ex_wenv true (then_send mf10) strict_opts 10 16 (ex55 extra) with (Ok (l, _), _) => l | _ => [] end.
Example C55_example :
  clean (VDict (ex55 [])) /\ one_mat (ex55 []) /\ no_send mf10 = true /\
  map (skipn 66) (ex55_lines []) = repeat $" 12510 16" 7 ++ [$" 12510  099999"] /\
  exists c d', write_recipe ex_wenv true (then_send mf10) strict_opts 10 16 (ex55 []) = (Ok (ex55_lines [], c), d').
Proof.
  split; [apply tidy_clean; vm_compute; reflexivity|]. split; [apply tidy_one_mat; vm_compute; reflexivity|].
  split; [reflexivity|]. split; [vm_compute; reflexivity|]. eexists _, _. vm_compute. reflexivity.
Qed.

(** A MAT stored in a subsection, with MF and MT beside it, is taken for the lines of that
    subsection: with two MAT numbers in the dictionary the lines of one section differ in
    them. *)
Theorem C55_second_mat_refuted : exists d lines c d',
  clean (VDict d) /\ write_recipe ex_wenv true (then_send mf10) strict_opts 10 16 d = (Ok (lines, c), d') /\
  MAT c = 125 /\ exists l, In l (removelast lines) /\ carries 11 l 999 10 16.
Proof.
  set (x := [(KStr $"MAT", vint 999); (KStr $"MF", vint 10); (KStr $"MT", vint 16)]).
  exists (ex55 x), (ex55_lines x). eexists _, _.
  split; [apply tidy_clean; vm_compute; reflexivity|]. split; [vm_compute; reflexivity|]. split; [reflexivity|].
  exists (nth 4 (ex55_lines x) []). split; [vm_compute; tauto|]. apply (carries_iff default_ro). vm_compute. reflexivity.
Qed.
Print Assumptions C55_second_mat_refuted.
