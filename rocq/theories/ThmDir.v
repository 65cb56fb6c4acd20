(** Theorems about the directory and the files written with it: C43, C44. *)
From Coq Require Import Ascii String ZArith Bool Lia List.
From Coq Require Import Floats.SpecFloat.
From Verif Require Import PyBase PyFloat ModelFortran ModelRecords ModelTape SpecTape ProofTape.
From Verif Require Import ModelRecipe ModelNum ModelInterp ModelRecipes ModelRegistry ModelParser ModelPath ModelTools.
From Verif Require Import SpecFields SpecLibm SpecInterp SpecPath SpecRound SpecKinds SpecSign SpecFile SpecTools SpecTapeEx SpecInterpEx.
From Verif Require Import ProofFields ProofTapeWrite ProofFile2 ProofKinds ProofFileEx ProofDir ProofDirCount ProofDirFile ThmFile.
Import ListNotations.
Open Scope Z_scope.

(** ** C43 *)

(** The lines of MF1/MT451 itself: four records, the text and the directory. The recipe of ENDF-6
    writes the first five lines of text always, that of PENDF all of them in a loop. *)
Theorem C43_own_lines : forall en explain o d ls c d' nwd nxc, e_write en = true ->
  dget (KStr $"NWD") d = Some (vint nwd) -> dget (KStr $"NXC") d = Some (vint nxc) -> 0 <= nxc ->
  (5 <= nwd -> write_recipe en explain (with_send mf1_mt451) o 1 451 d = (Ok (ls, c), d') -> Z.of_nat (length (removelast ls)) = 4 + nwd + nxc) /\
  (0 <= nwd -> write_recipe en explain (with_send pendf_mf1_mt451) o 1 451 d = (Ok (ls, c), d') -> Z.of_nat (length (removelast ls)) = 4 + nwd + nxc).
Proof. exact own_lines. Qed.
Print Assumptions C43_own_lines.

(** A file [d] is written as the tape [t] (C04), the directory is made from its sections
    [m], and the file with this directory is written as the tape [t2]: then the directory lists
    exactly the sections of [t2] with their numbers of lines. *)
Theorem C43_rewritten : forall p blank o d t m old nwd new d2 t2,
  is_dict2 d -> skeleton (write_one p blank o) (p_ro p) (p_wo p) None None d t -> holds d 1 451 (Parsed old) ->
  dget (KStr $"NWD") old = Some (VNum (NInt nwd)) -> proper_directory old ->
  (find_recipe (p_recipes p) 1 451 = Some (with_send mf1_mt451) /\ 5 <= nwd) \/
  (find_recipe (p_recipes p) 1 451 = Some (with_send pendf_mf1_mt451) /\ 0 <= nwd) ->
  is_dict2 m -> (forall mf mt ls, mf <> 0 -> (holds m mf mt ls <-> written_section t mf mt ls)) ->
  update_directory m old = Ok new -> with_section 1 451 new d d2 ->
  skeleton (write_one p blank o) (p_ro p) (p_wo p) None None d2 t2 ->
  forall mf mt n, mf <> 0 -> mt <> 0 ->
    (exists i md, entry new i mf mt n md) <-> (exists ls, written_section t2 mf mt ls /\ n = Z.of_nat (length ls)).
Proof. exact rewritten. Qed.
Print Assumptions C43_rewritten.

(** The same for files that can be read back (C56): the sections are those that are found in the
    lines of the file. *)
Theorem C43_rewritten_file : forall p blank o,
  field_width (p_wo p) -> r_width (p_ro p) = w_width (p_wo p) -> strict (p_ro p) ->
  forall d old nwd, whole_file p blank o d -> holds d 1 451 (Parsed old) ->
  dget (KStr $"NWD") old = Some (VNum (NInt nwd)) -> proper_directory old ->
  (find_recipe (p_recipes p) 1 451 = Some (with_send mf1_mt451) /\ 5 <= nwd) \/
  (find_recipe (p_recipes p) 1 451 = Some (with_send pendf_mf1_mt451) /\ 0 <= nwd) ->
  exists lines new, write p blank None None o d = Ok lines /\ update_directory_from (p_ro p) lines old = Ok new /\
  forall d2, with_section 1 451 new d d2 -> whole_file p blank o d2 ->
  exists lines2 m, write p blank None None o d2 = Ok lines2 /\ split_sections (p_ro p) lines2 = Ok m /\
  forall mf mt n, mf <> 0 -> mt <> 0 ->
    (exists i md, entry new i mf mt n md) <-> (exists ls, holds m mf mt ls /\ n = Z.of_nat (length ls)).
Proof. exact rewritten_file. Qed.
Print Assumptions C43_rewritten_file.

(** *** A case: the file of C56 with MF1/MT451 *)

Definition txt (n : nat) (s : string) : val := VStr (ljust n (list_ascii_of_string s)).
Definition ex43_451 (nwd : Z) (hsub descr : list val) : dict :=
  let rows (l : list val) := VDict (combine (map (fun i => KInt (Z.of_nat i)) (seq 1 (length l))) l) in
  [(KStr $"MAT", vint 125); (KStr $"MF", vint 1); (KStr $"MT", vint 451); (KStr $"ZA", vint 1001); (KStr $"AWR", flt 3 (-2));
   (KStr $"LRP", vint 1); (KStr $"LFI", vint 0); (KStr $"NLIB", vint 0); (KStr $"NMOD", vint 1); (KStr $"ELIS", flt 1 0); (KStr $"STA", flt 1 0);
   (KStr $"LIS", vint 0); (KStr $"LISO", vint 0); (KStr $"NFOR", vint 6); (KStr $"AWI", flt 1 0); (KStr $"EMAX", flt 5 10); (KStr $"LREL", vint 0);
   (KStr $"NSUB", vint 10); (KStr $"NVER", vint 8); (KStr $"TEMP", flt 3 0); (KStr $"LDRV", vint 0); (KStr $"NWD", vint nwd); (KStr $"NXC", vint 0);
   (KStr $"ZSYMAM", txt 11 "  1-H -  1"); (KStr $"ALAB", txt 11 "LANL"); (KStr $"EDATE", txt 10 "EVAL-OCT05"); (KStr $"AUTH", txt 33 "G.M.Hale");
   (KStr $"REF", txt 21 "CH99,1"); (KStr $"DDATE", txt 10 "DIST-DEC06"); (KStr $"RDATE", txt 10 ""); (KStr $"ENDATE", txt 8 "20111222");
   (KStr $"HSUB", rows hsub); (KStr $"DESCRIPTION", rows descr)].
Definition ex43_hsub : list val := [txt 66 "----ENDF/B-VIII       MATERIAL  125"; txt 66 "-----INCIDENT NEUTRON DATA"; txt 66 "------ENDF-6 FORMAT"].
Definition ex43_old : dict := ex43_451 7 ex43_hsub [txt 66 "two lines"; txt 66 "of text"].
Definition ex43 (mt451 : dict) : mfdic (section dict) :=
  [(35, [(18, Parsed ex56_mf35)]); (1, [(451, Parsed mt451)]); (30, [(1, Raw ex56_raw)]); (3, [(2, Parsed ex56_mf3); (1, Parsed ex56_mf3)]); (0, [(0, Parsed ex56_head)])].
Definition ex43_new (old : dict) : dict :=
  match write ex56_parser true None None strict_opts (ex43 old) with
  | Ok lines => match update_directory_from default_ro lines old with Ok new => new | Err _ => [] end
  | Err _ => []
  end.

Lemma ex43_file mt451 : restorableb ex56_parser true strict_opts 125 1 451 mf1_mt451 mf1_mt451 mt451 = true -> whole_file ex56_parser true strict_opts (ex43 mt451).
Proof.
  intros H451.
  assert (H1 : restorable ex56_parser true strict_opts 125 1 451 (recipe_schema mf1_mt451) mt451).
  { apply (restorableb_spec _ _ _ _ _ _ _ mf1_mt451); [vm_compute; reflexivity|now left|exact H451]. }
  destruct C56_example as (_ & _ & D & Sub & (h & hmat & G & Hh & Rh) & M0 & _ & mat & Nm & Se).
  assert (mat = 125) as ->.
  { destruct (Se 30 1 (Raw ex56_raw) ltac:(discriminate)) as (_ & _ & _ & F); [exists [(1, Raw ex56_raw)]; cbn; tauto|].
    inversion F as [|? ? [C _] _]; subst. apply (carries_iff default_ro) in C. vm_compute in C. injection C as <-. reflexivity. }
  assert (Hd : forall mf mt x, holds (ex43 mt451) mf mt x <-> (mf = 1 /\ mt = 451 /\ x = Parsed mt451) \/ holds ex56 mf mt x).
  { intros mf mt x. split.
    - intros (sub & I & J). cbn [ex43 In] in I. destruct I as [I|[I|[I|[I|[I|[]]]]]]; injection I as <- <-.
      2: { cbn [In] in J. destruct J as [J|[]]. injection J as <- <-. left. auto. }
      all: right; eexists; split; [|exact J]; unfold ex56; cbn [In]; tauto.
    - intros [(-> & -> & ->)|(sub & I & J)]; [exists [(451, Parsed mt451)]; cbn; tauto|]. exists sub. split; [|exact J]. unfold ex56 in I. cbn [In] in I. unfold ex43. cbn [In]. tauto. }
  split. { split; [repeat constructor; cbn; lia|]. intros mf sub I. cbn in I. repeat (destruct I as [I|I]; [injection I as <- <-; repeat constructor; cbn; lia|]). destruct I. }
  split. { intros mf sub I. cbn in I. repeat (destruct I as [I|I]; [injection I as <- <-; split; [discriminate|lia]|]). destruct I. }
  split. { exists h, hmat, G. split; [apply Hd; right; exact Hh|exact Rh]. }
  split. { intros mt x H. apply Hd in H as [(X & _)|H]; [discriminate X|exact (M0 mt x H)]. }
  split. { exists 1, 451, (Parsed mt451). split; [discriminate|]. apply Hd. auto. }
  exists 125. split; [discriminate|]. intros mf mt x Nz H. apply Hd in H as [(-> & -> & ->)|H]; [|exact (Se mf mt x Nz H)]. split; [discriminate|]. eauto.
Qed.
Lemma ex43_put old new : with_section 1 451 new (ex43 old) (ex43 new).
Proof.
  split.
  - split; [repeat constructor; cbn; lia|]. intros mf sub I. cbn in I. repeat (destruct I as [I|I]; [injection I as <- <-; repeat constructor; cbn; lia|]). destruct I.
  - intros mf mt y. split.
    + intros (sub & I & J). cbn [ex43 In] in I. destruct I as [I|[I|[I|[I|[I|[]]]]]]; injection I as <- <-.
      2: { cbn [In] in J. destruct J as [J|[]]. injection J as <- <-. left. auto. }
      all: right; (split; [discriminate|]); eexists; split; [|exact J]; unfold ex43; cbn [In]; tauto.
    + intros [[E ->]|[E (sub & I & J)]]; [injection E as -> ->; exists [(451, Parsed new)]; cbn; tauto|]. exists sub. split; [|exact J]. cbn [ex43 In] in *.
      destruct I as [I|[I|[I|[I|[I|[]]]]]]; [tauto| |tauto|tauto|tauto]. injection I as <- <-. destruct J as [J|[]]. injection J as <- <-. contradiction.
Qed.

Example C43_rewritten_case : whole_file ex56_parser true strict_opts (ex43 ex43_old) /\ holds (ex43 ex43_old) 1 451 (Parsed ex43_old) /\
  dget (KStr $"NWD") ex43_old = Some (VNum (NInt 7)) /\ proper_directory ex43_old /\
  find_recipe (p_recipes ex56_parser) 1 451 = Some (with_send mf1_mt451) /\
  with_section 1 451 (ex43_new ex43_old) (ex43 ex43_old) (ex43 (ex43_new ex43_old)) /\
  whole_file ex56_parser true strict_opts (ex43 (ex43_new ex43_old)) /\
  entry (ex43_new ex43_old) 1 1 451 16 0 /\ entry (ex43_new ex43_old) 2 3 1 4 0 /\ entry (ex43_new ex43_old) 5 35 18 3 0.
Proof.
  split; [apply ex43_file; vm_compute; reflexivity|]. split; [exists [(451, Parsed ex43_old)]; cbn; tauto|]. split; [reflexivity|].
  split; [left; reflexivity|]. split; [vm_compute; reflexivity|]. split; [apply ex43_put|]. split; [apply ex43_file; vm_compute; reflexivity|].
  set (n := ex43_new ex43_old). vm_compute in n. subst n. unfold entry, cell.
  repeat split; eexists; (split; [reflexivity|reflexivity]).
Qed.

(** With fewer than five lines of text, the five lines that are always written are not counted. *)
Definition ex43_few : dict := ex43_451 2 ex43_hsub [].
Theorem C43_few_lines_refuted : exists p blank o d old new lines2 m ls nc md,
  whole_file p blank o d /\ holds d 1 451 (Parsed old) /\ dget (KStr $"NWD") old = Some (VNum (NInt 2)) /\
  find_recipe (p_recipes p) 1 451 = Some (with_send mf1_mt451) /\
  (exists lines, write p blank None None o d = Ok lines /\ update_directory_from (p_ro p) lines old = Ok new) /\
  with_section 1 451 new d (ex43 new) /\ write p blank None None o (ex43 new) = Ok lines2 /\
  split_sections (p_ro p) lines2 = Ok m /\ holds m 1 451 ls /\ entry new 1 1 451 nc md /\ nc = 11 /\ length ls = 14%nat.
Proof.
  exists ex56_parser, true, strict_opts, (ex43 ex43_few), ex43_few, (ex43_new ex43_few).
  do 5 eexists. split; [apply ex43_file; vm_compute; reflexivity|]. split; [exists [(451, Parsed ex43_few)]; cbn; tauto|]. split; [reflexivity|].
  split; [vm_compute; reflexivity|]. split.
  { eexists. split; [vm_compute; reflexivity|]. vm_compute. reflexivity. }
  split; [apply ex43_put|]. split; [vm_compute; reflexivity|]. split; [vm_compute; reflexivity|].
  split; [eexists; split; [right; left; reflexivity|left; reflexivity]|].
  split; [|split; reflexivity]. set (n := ex43_new ex43_few). vm_compute in n. subst n. unfold entry, cell. repeat split; eexists; (split; [reflexivity|reflexivity]).
Qed.
Print Assumptions C43_few_lines_refuted.

(** ** C44 *)

(** In a PENDF file all lines of text are in the description, but set_description counts five more:
    the section can then not be written. *)
Theorem C44_pendf_refuted : exists mt451 text lines,
  let en := write_env default_ro default_wo false 100 in
  fst (write_recipe en true (with_send pendf_mf1_mt451) strict_opts 1 451 mt451) = Ok lines /\
  fst (write_recipe en true (with_send pendf_mf1_mt451) strict_opts 1 451 (set_description text mt451)) = Err UnavailableIndexError.
Proof.
  exists ((KStr $"TOL", flt 1 0) :: ex43_451 1 [] [txt 66 "a line"]), $"another line". eexists. cbv zeta. split; vm_compute; reflexivity.
Qed.
Print Assumptions C44_pendf_refuted.

(** ** C04, C05 and C06 *)

(** The condition of C04 to C06 on the control numbers for this file, the recipes being those of
    ENDF-6. *)
Example C04_parsed_case : exists lines, write ex56_parser true None None strict_opts (ex43 ex43_old) = Ok lines /\
  is_dict2 (ex43 ex43_old) /\ (forall mf sub, In (mf, sub) (ex43 ex43_old) -> 0 <= mf) /\
  forall mf mt x ls c, holds (ex43 ex43_old) mf mt (Parsed x) -> write_one ex56_parser true strict_opts mf mt x = Ok (ls, c) -> ctrl_fits c.
Proof.
  eexists. split; [vm_compute; reflexivity|]. split; [exact (proj1 (ex43_put ex43_old ex43_old))|]. split.
  - intros mf sub I. cbn in I. repeat (destruct I as [I|I]; [injection I as <- <-; lia|]). destruct I.
  - intros mf mt x ls c (sub & I & J) H. cbn [ex43 In] in I.
    destruct I as [I|[I|[I|[I|[I|[]]]]]]; injection I as <- <-; cbn [In] in J; repeat destruct J as [J|J]; try discriminate J; try contradiction;
      injection J as <- <-; vm_compute in H; injection H as _ <-; vm_compute; repeat split; reflexivity.
Qed.
