(** C56: a file that is written is read back as a whole. *)
From Coq Require Import Ascii String ZArith Bool Lia List.
From Coq Require Import Floats.SpecFloat.
From Verif Require Import PyBase PyFloat ModelFortran ModelRecords ModelTape ModelNum ModelRecipe ModelInterp ModelParser ModelRecipes ModelRegistry.
From Verif Require Import SpecFields SpecLibm SpecTape SpecTapeEx SpecInterp SpecInterpEx SpecRound SpecKinds SpecSign SpecFile.
From Verif Require Import ProofPyBase ProofFields ProofTape ProofTapeWrite ProofFile2 ProofFileEx ProofKinds.
Import ListNotations.
Open Scope Z_scope.

(** Let every section of a file be one that can be written and, by C31, read back, or a list
    of lines where the parser has no recipe. Then the file as a whole is written, and what is
    written is read without an exception into the same sections: dictionaries with the values
    as printed, the lists of lines with the same contents of their columns. Everything that
    was written is read: without values that are not read back, the same file is written.

    Missing: the recipes that are missing in C31. *)
Theorem C56_file_round_trip_partial : forall p blank nofail o d,
  field_width (p_wo p) -> r_width (p_ro p) = w_width (p_wo p) -> strict (p_ro p) -> whole_file p blank o d ->
  exists tape, write p blank None None o d = Ok tape /\
    forall o', o_all o' = false -> o_fuzzy o' = false -> exists d',
      parse p nofail None None o' tape = (Ok d', o') /\ is_dict2 d' /\
      (forall mf mt x, holds d mf mt x -> exists y, holds d' mf mt y /\ section_back p blank o mf mt x y) /\
      (forall mf mt y, holds d' mf mt y -> exists x, holds d mf mt x /\ section_back p blank o mf mt x y) /\
      forall d2, sectionwise (thinned_section d') d d2 -> write p blank None None o d2 = Ok tape.
Proof. exact whole_file_back. Qed.
Print Assumptions C56_file_round_trip_partial.

(** the recipes of the package for which the conditions can be met: the tape head and those
    of C31 *)
Example C56_tapehead : no_send mf0_mt0_tapehead = true /\ good_schema (recipe_schema mf0_mt0_tapehead) /\
  readable_recipe (recipe_schema mf0_mt0_tapehead) (6 * w_width default_wo) mf0_mt0_tapehead = true.
Proof. split; [reflexivity|]. split; [apply good_recipe_spec; reflexivity|reflexivity]. Qed.

(** A file with the recipes of ENDF-6: the tape head, MF=3, MF=35 and, verbatim, MF=30. *)
Definition ex56_parser : parser := ex_parser match get_recipe_dict $"endf6" with Ok rs => rs | Err _ => [] end.
Definition flt (m : positive) (e : Z) : val := VNum (NFlt (S754_finite false m e)).
Definition ex56_head : dict := [(KStr $"MAT", vint 1); (KStr $"MF", vint 0); (KStr $"MT", vint 0);
  (KStr $"TAPEDESCR", VStr $"a tape                                                            ")].
Definition ex56_mf3 : dict :=
  [(KStr $"MAT", vint 125); (KStr $"ZA", vint 1001); (KStr $"AWR", flt 3 (-2)); (KStr $"QM", flt 1 0); (KStr $"QI", flt 1 0);
   (KStr $"LR", vint 0);
   (KStr $"xstable", VDict [(KStr $"NBT", VList [vint 2]); (KStr $"INT", VList [vint 2]);
      (KStr $"E", VList [flt 1 0; flt 1 5]); (KStr $"xs", VList [flt 3 0; flt 5 0])])].
Definition ex56_vec (n : list Z) : val := VDict (map (fun i => (KInt i, flt (Z.to_pos (2 * i + 1)) (-3))) n).
Definition ex56_mf35 : dict :=
  [(KStr $"MAT", vint 125); (KStr $"ZA", vint 1001); (KStr $"AWR", flt 15267 (-16)); (KStr $"NK", vint 1);
   (KStr $"subsection", VDict [(KInt 1, VDict [(KStr $"E1", flt 1 (-20)); (KStr $"E2", flt 3 20); (KStr $"LS", vint 1); (KStr $"LB", vint 7);
         (KStr $"NT", vint 6); (KStr $"NE", vint 3); (KStr $"E", ex56_vec [1; 2; 3]);
         (KStr $"F", VDict [(KInt 1, ex56_vec [1; 2]); (KInt 2, ex56_vec [2])])])])].
Definition ex56_raw : list str := [ex_line $" some lines of a file without recipe" 125 30 1; ex_line $"and more" 125 30 1].
Definition ex56 : mfdic (section dict) :=
  [(35, [(18, Parsed ex56_mf35)]); (30, [(1, Raw ex56_raw)]); (3, [(2, Parsed ex56_mf3); (1, Parsed ex56_mf3)]); (0, [(0, Parsed ex56_head)])].

Example C56_example : field_width default_wo /\ strict default_ro /\ whole_file ex56_parser true strict_opts ex56.
Proof.
  split; [vm_compute; lia|]. split; [vm_compute; auto|].
  assert (H0 : restorable ex56_parser true strict_opts 1 0 0 (recipe_schema mf0_mt0_tapehead) ex56_head).
  { apply (restorableb_spec _ _ _ _ _ _ _ mf0_mt0_tapehead); [vm_compute; reflexivity|now left|vm_compute; reflexivity]. }
  assert (H3 : forall mt, mt = 1 \/ mt = 2 -> restorable ex56_parser true strict_opts 125 3 mt (recipe_schema mf3) ex56_mf3).
  { intros mt [->| ->]; (apply (restorableb_spec _ _ _ _ _ _ _ mf3); [vm_compute; reflexivity|now left|vm_compute; reflexivity]). }
  assert (H35 : restorable ex56_parser true strict_opts 125 35 18 (recipe_schema mf35) ex56_mf35).
  { apply (restorableb_spec _ _ _ _ _ _ _ (closed mf35)); [vm_compute; reflexivity|now right|vm_compute; reflexivity]. }
  split. { split; [repeat constructor; cbn; lia|]. intros mf sub I. cbn in I. repeat (destruct I as [I|I]; [injection I as <- <-; repeat constructor; cbn; lia|]). destruct I. }
  split. { intros mf sub I. cbn in I. repeat (destruct I as [I|I]; [injection I as <- <-; split; [discriminate|lia]|]). destruct I. }
  split. { exists ex56_head, 1. eexists. split; [exists [(0, Parsed ex56_head)]; cbn; tauto|]. split; [exact H0|]. eexists _, _. vm_compute. reflexivity. }
  split. { intros mt x (sub & I & J). cbn in I.
    destruct I as [I|[I|[I|[I|[]]]]]; try discriminate I. injection I as <-. destruct J as [J|[]]. congruence. }
  split. { exists 30, 1, (Raw ex56_raw). split; [discriminate|]. exists [(1, Raw ex56_raw)]. cbn; tauto. }
  exists 125. split; [discriminate|]. intros mf mt x Nz (sub & I & J). cbn in I.
  destruct I as [I|[I|[I|[I|[]]]]]; injection I as <- <-; cbn in J.
  - destruct J as [J|[]]. injection J as <- <-. split; [discriminate|]. eexists. exact H35.
  - destruct J as [J|[]]. injection J as <- <-. split; [discriminate|]. split; [vm_compute; reflexivity|]. split; [discriminate|].
    repeat (apply Forall_cons || apply Forall_nil); (split; [apply (carries_iff default_ro); vm_compute; reflexivity|vm_compute; lia]).
  - destruct J as [J|[J|[]]]; injection J as <- <-; (split; [discriminate|]); eexists; apply H3; auto.
  - contradiction.
Qed.
(** the file has 23 lines *)
Example C56_example_lines : match write ex56_parser true None None strict_opts ex56 with
  | Ok tape => length tape = 23%nat /\ exists d', parse ex56_parser false None None strict_opts tape = (Ok d', strict_opts) /\
      map (fun e => (fst e, map fst (snd e))) d' = [(0, [0]); (3, [1; 2]); (30, [1]); (35, [18])]
  | Err _ => False end.
Proof.
  set (w := write _ _ _ _ _ _). vm_compute in w. subst w. cbv iota. split; [reflexivity|].
  eexists. split; [vm_compute; reflexivity|]. reflexivity.
Qed.
