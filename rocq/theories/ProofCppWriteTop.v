(** The generated C++ functions for writing: a whole section. *)
From Coq Require Import Ascii String ZArith Bool Lia List.
From Coq Require Import Floats.SpecFloat.
From Verif Require Import PyBase ProofPyBase PyFloat ProofFloat ModelFortran ModelRecords ModelTape SpecFields ProofFields SpecFloat SpecTape ProofRecords ProofCppWrite ProofCppTab.
From Verif Require Import ModelNum ModelRecipe ModelInterp SpecInterp
  ModelCpp ModelCppTab ModelCppArr SpecCpp SpecCppTab SpecCppRead ModelCppGen SpecCppGen ModelCppWrite SpecCppWrite.
From Verif Require Import ModelParser ModelCppWriteFile.
From Verif Require Import ProofInterp ProofInterpSec ProofInterpFrame ProofInterpWrite ProofInterpMap.
From Verif Require Import ProofCppArr ProofCppGenRead ProofCppGenMap ProofCppGenEval ProofCppGenReg ProofCppGenTop ProofCppWriteEval ProofCppWriteBase ProofCppWriteRec ProofCppWriteRun.
Import ListNotations.
Open Scope Z_scope.

(** ** Lines *)

Lemma line_ends wo whole bs bs' : Forall2 (body_alike wo whole) bs bs' -> forall c n, Forall2 (line_alike wo whole) (finished wo c n bs) (finished wo c n bs').
Proof.
  intros F c. unfold finished. destruct (w_linenum wo).
  - induction F as [|a b bs bs' AB F IH]; intros n; cbn [map number_lines]; constructor; [|apply IH].
    exists a, b, (write_ctrl c ++ rjust 5 (str_of_Z (n mod 99999 + 1))). rewrite <- !app_assoc. auto.
  - induction F as [|a b bs bs' AB F IH]; intros n; cbn [map]; constructor; [|apply (IH n)]. exists a, b, (write_ctrl c). auto.
Qed.
Lemma line_same wo a b : line_alike wo true a b -> a = b.
Proof. intros (p & q & r & -> & -> & [->|[W _]]); [reflexivity|discriminate]. Qed.
Lemma lines_same wo : forall a b, Forall2 (line_alike wo true) a b -> a = b.
Proof. intros a b F. induction F as [|x y a b X F IH]; [reflexivity|]. f_equal; [eapply line_same; eauto|exact IH]. Qed.
Lemma line_alike_refl wo whole a : line_alike wo whole a a.
Proof. exists a, a, []. rewrite app_nil_r. repeat split. now left. Qed.

Lemma numbered wo c bs ls : w_width wo = 11%nat -> ctrl_fits c -> MF c <> 0 -> Forall (fun b : str => length b = 66%nat) bs ->
  add_linenumbers_to_section wo (map (ctl c) bs) = Ok ls -> ls = finished wo c 0 bs.
Proof.
  intros W CF NZ L H. unfold add_linenumbers_to_section in H. destruct bs as [|b bs]; [discriminate|]. cbn [map get_line nth_error bind] in H.
  assert (RC : read_ctrl (ctrl_ropts (w_width wo)) (ctl c b) = Ok c).
  { apply control_in_ctrl; [exact CF|exact W|]. exists b, []. rewrite app_nil_r. split; [reflexivity|]. now inversion L. }
  change (get_line (ctl c b :: map (ctl c) bs) 0) with (Ok (ctl c b) : result str) in H. cbn [bind] in H. rewrite RC in H. cbn [bind] in H.
  assert (CUT : map (firstn (w_width wo * 6 + 9)) (map (ctl c) (b :: bs)) = map (ctl c) (b :: bs)).
  { rewrite W, map_map. apply map_ext_in. intros x I. rewrite Forall_forall in L. specialize (L x I). apply firstn_all2. unfold ctl. rewrite app_length, L, (len_ctrl c CF). cbn; lia. }
  cbn [map] in CUT. rewrite CUT in H. replace (MF c =? 0) with false in H by (symmetry; now apply Z.eqb_neq).
  unfold finished. change (fun t : str => t ++ write_ctrl c) with (ctl c). destruct (w_linenum wo); cbn [negb] in H; now injection H as <-.
Qed.

(** ** The dictionary *)

Lemma ctrl_dic_nil d : ctrl_dic d [] = d.
Proof. cbn [ctrl_dic]. now destruct (dget _ d). Qed.

Lemma eqZ_int z y : val_eqZ (vint z) y = true -> z = y.
Proof.
  intros H. apply Z.eqb_eq. rewrite <- H. unfold val_eqZ, vint, num_eqb. unfold num_cmp. cbn [sf_of num_num num_den]. rewrite !Z.mul_1_r, Z.eqb_compare. now destruct (z ?= y).
Qed.

Lemma clean_dset_int d k z : clean (VDict d) -> ~ working_key k -> clean (VDict (dset k (vint z) d)).
Proof.
  intros C NW. inversion C as [d0 A B|d0 A]; subst; [|destruct (A _ eq_refl)]. apply cl_dict.
  - intros j W. rewrite dget_dset_other; [auto|]. intros ->. exact (NW W).
  - intros j v G. destruct (key_eqb j k) eqn:E.
    + apply key_eqb_eq in E. subst j. rewrite dget_dset_same in G. injection G as <-. apply cl_other. discriminate.
    + rewrite dget_dset_other in G; [eauto|]. intros ->. now rewrite key_eqb_refl in E.
Qed.
Lemma default_dset k z d d1 : set_ctrl_default k z d = (d1, true) -> (exists y, dget (KStr k) d1 = Some (vint y)) -> d1 = dset (KStr k) (vint z) d.
Proof.
  unfold set_ctrl_default. destruct (dget (KStr k) d) as [v|] eqn:G; intros H [y Y]; injection H as <-; [|reflexivity].
  rewrite G in Y. injection Y as ->. symmetry. apply dset_same. rewrite G. do 3 f_equal. 
  apply eqZ_int in H. exact H.
Qed.
Lemma clean_defaults mf mt d d1 d2 : set_ctrl_default $"MF" mf d = (d1, true) -> set_ctrl_default $"MT" mt d1 = (d2, true) -> clean (VDict d) -> clean (VDict d2).
Proof.
  intros S1 S2 CL.
  assert (K : forall k z a b0, (k = $"MF" \/ k = $"MT") -> set_ctrl_default k z a = (b0, true) -> clean (VDict a) -> clean (VDict b0)).
  { intros k z a b0 KK SS CA. unfold set_ctrl_default in SS. destruct (dget (KStr k) a); injection SS as <- ; [exact CA|]. apply clean_dset_int; [exact CA|].
    destruct KK as [-> | ->]; intros [W|[W|W]]; discriminate. }
  eapply K; [right; reflexivity|exact S2|]. eapply K; [left; reflexivity|exact S1|exact CL].
Qed.
Lemma text_ctrl en cs fs s s' : e_write en = true -> do_text en cs fs s = (Ok tt, s') -> exists c l, get_ctrl (ps_dic s) (ps_up s) = Ok c /\ s' = add_lines [l] s.
Proof.
  intros EW PY. unfold do_text in PY. rewrite EW in PY. apply mbind_ok in PY as ([] & s1 & H1 & PY). apply check_write in H1 as ->.
  apply mbind_ok in PY as (t & s2 & H2 & PY). injection H2 as H2 <-. apply write_ok in PY as (ls & H3 & ->).
  unfold the_ctrl in H3. destruct (get_ctrl _ _) as [c|]; [|discriminate]. cbn [bind] in H3. unfold write_text in H3. injection H3 as <-. eauto.
Qed.
Lemma head_ctrl en h cs f s s' : e_write en = true -> do_cont en h cs f s = (Ok tt, s') -> exists c, get_ctrl (ps_dic s) (ps_up s) = Ok c.
Proof.
  intros EW PY. unfold do_cont in PY. rewrite EW in PY. apply mbind_ok in PY as ([] & s1 & H1 & PY). apply check_write in H1 as ->.
  apply mbind_ok in PY as (vs & s2 & H2 & PY). apply map_write_ok in H2 as [-> H2]. apply write_ok in PY as (ls & H3 & ->).
  unfold the_ctrl in H3. destruct (get_ctrl _ _) as [c|]; [eauto|discriminate].
Qed.

(** ** Sections *)

Section Top.
  Variables (o : cwopts) (preserve : bool) (ro : ropts) (wo : wopts) (whole : bool) (depth : nat).
  Hypothesis SO : same_options o wo.
  Hypothesis KE : cw_keepE o = false.
  Hypothesis NE : cw_noexp o = false.
  Notation en := (write_env ro wo false depth).
  Notation regular := (Forall (regular_wnote o preserve wo whole)).

  Lemma send_split : forall r b s s', ends_with_send r = Some b -> ps_look s = None -> exec_block en r s = (Ok tt, s') ->
    exists s1, exec_block en b s = (Ok tt, s1) /\ exec en ISend s1 = (Ok tt, s').
  Proof.
    induction r as [|i r IH]; intros b s s' H LK PY; [discriminate H|]. rewrite exec_cons_eq in PY. unfold mbind at 1, should_proceed in PY. rewrite LK in PY.
    apply mbind_ok in PY as ([] & s1 & P1 & P2). apply send_cons in H as [(-> & -> & ->)|(r' & E & ->)].
    - rewrite exec_nil_eq in P2 |- *. injection P2 as <-. exists s. auto.
    - pose proof (fk_look _ _ _ (proj1 (exec_frame en) i _ _ _ P1) LK) as L1. destruct (IH _ _ _ E L1 P2) as (s2 & A & B).
      exists s2. split; [|exact B]. rewrite exec_cons_eq. unfold mbind at 1, should_proceed. rewrite LK. unfold mbind. now rewrite P1.
  Qed.

  Lemma start_rel po c d : clean (VDict d) -> dget (KStr $"MAT") d = Some (vint (MAT c)) -> dget (KStr $"MF") d = Some (vint (MF c)) -> dget (KStr $"MT") d = Some (vint (MT c)) ->
    wrel c [] [] (reset_state po [] d) {| k_lines := []; k_cur := {| cf_vars := start_cells c; cf_dict := d; cf_shift := [] |}; k_up := []; k_loops := []; k_notes := [] |}.
  Proof.
    intros C G1 G2 G3. split; cbn [reset_state ps_dic ps_up ps_loops ps_look k_cur k_up k_loops].
    - split; [exact C|]. exists []. split; [symmetry; apply app_nil_r|constructor].
    - intros x k H. unfold start_cells in H. cbn [cf_vars cf_dict vget] in *.
      destruct (str_eqb x $"MAT") eqn:E1. { apply str_eqb_eq in E1. subst x. injection H as <-. intros z Z. injection Z as <-. exact G1. }
      destruct (str_eqb x $"MF") eqn:E2. { apply str_eqb_eq in E2. subst x. injection H as <-. intros z Z. injection Z as <-. exact G2. }
      destruct (str_eqb x $"MT") eqn:E3. { apply str_eqb_eq in E3. subst x. injection H as <-. intros z Z. injection Z as <-. exact G3. }
      discriminate.
    - constructor.
    - reflexivity.
    - split; constructor.
    - reflexivity.
    - unfold get_ctrl. rewrite ctrl_dic_nil, G1, G2, G3. destruct c. reflexivity.
  Qed.

  (** Python's defaults and the entries the compiled function sets *)
  Lemma same_start mf mt mto mat d d1 d2 ctl w cc st : clean (VDict d) -> dget (KStr $"MAT") d = Some (vint mat) -> (mto = None \/ mto = Some mt) -> 
    set_ctrl_default $"MF" mf d = (d1, true) -> set_ctrl_default $"MT" mt d1 = (d2, true) -> (w = [w_abb; w_sta]) ->
    get_ctrl (d2 ++ w) [] = Ok ctl -> write_start mf mto d = Val (cc, st) ->
    cc = {| MAT := mat; MF := mf; MT := mt |} /\
    st = {| w_c := {| k_lines := []; k_cur := {| cf_vars := start_cells cc; cf_dict := d2; cf_shift := [] |}; k_up := []; k_loops := []; k_notes := [] |};
            w_out := []; w_num := if (mf =? 0) && (mt =? 0) then -1 else 0; w_draft := []; w_notes := [] |} /\
    clean (VDict d2) /\ dget (KStr $"MAT") d2 = Some (vint mat) /\ dget (KStr $"MF") d2 = Some (vint mf) /\ dget (KStr $"MT") d2 = Some (vint mt).
  Proof.
    intros C GM MO S1 S2 -> GC WS.
    assert (APP : forall x, x <> $"__abbrevs" -> x <> $"__startidcs" -> dget (KStr x) (d2 ++ [w_abb; w_sta]) = dget (KStr x) d2).
    { intros x X1 X2. rewrite dget_app. destruct (dget (KStr x) d2); [reflexivity|]. unfold w_abb, w_sta. cbn [dget key_eqb].
      destruct (str_eqb x _) eqn:E; [apply str_eqb_eq in E; contradiction|]. destruct (str_eqb x $"__startidcs") eqn:E2; [apply str_eqb_eq in E2; contradiction|]. reflexivity. }
    unfold get_ctrl in GC. rewrite ctrl_dic_nil, !APP in GC by discriminate.
    destruct (dget (KStr $"MAT") d2) as [a|] eqn:GA; [|discriminate]. destruct (dget (KStr $"MF") d2) as [b|] eqn:GB; [|discriminate]. destruct (dget (KStr $"MT") d2) as [e|] eqn:GE; [|discriminate].
    assert (INT : forall v, (exists z, as_Z v = Ok z) -> exists y, v = vint y). { intros v [z Z]. destruct v as [[y| |]| | | | | | |]; try discriminate. now exists y. }
    cut ((exists y, b = vint y) /\ (exists y, e = vint y)).
    2:{ destruct (as_Z a); [|discriminate]. cbn [bind] in GC. destruct (as_Z b) eqn:Q1; [|discriminate]. cbn [bind] in GC. destruct (as_Z e) eqn:Q2; [|discriminate]. split; apply INT; eauto. }
    intros [(yb & ->) (ye & ->)].
    pose proof (default_dset _ _ _ _ S2 (ex_intro _ _ GE)) as D2.
    assert (GB1 : dget (KStr $"MF") d1 = Some (vint yb)) by (rewrite D2, dget_dset_other in GB by discriminate; exact GB).
    pose proof (default_dset _ _ _ _ S1 (ex_intro _ _ GB1)) as D1.
    unfold write_start in WS. cbs WS as mat' M1. unfold entry_int in M1. rewrite GM in M1. cbn [cast_int vint] in M1. destruct (_ && _); [|discriminate]. injection M1 as <-.
    cbs WS as mt' M2.
    assert (mt' = mt) as ->.
    { destruct MO as [-> | ->]; [|now injection M2]. unfold entry_int in M2. destruct (dget (KStr $"MT") d) as [v|] eqn:GT; [|discriminate].
      destruct v as [[y| |]| | | | | | |]; try discriminate. cbn [cast_int] in M2. destruct (_ && _); [|discriminate]. injection M2 as <-.
      unfold set_ctrl_default in S2. rewrite D1, dget_dset_other, GT in S2 by discriminate. injection S2 as _ S2. now apply eqZ_int in S2. }
    injection WS as <- <-. split; [reflexivity|].
    assert (D : dset (KStr $"MT") (vint mt) (dset (KStr $"MF") (vint mf) (dset (KStr $"MAT") (vint mat) d)) = d2).
    { rewrite (dset_same (KStr $"MAT") _ d GM), <- D1, <- D2. reflexivity. }
    cbn [list_ascii_of_string] in D. rewrite D. split; [reflexivity|]. split.
    { rewrite D2. apply clean_dset_int; [rewrite D1; apply clean_dset_int; [exact C|]|]; intros [W|[W|W]]; discriminate. }
    rewrite <- GA, <- GB, <- GE. rewrite D2, D1. split; [now rewrite !dget_dset_other by discriminate|]. split; [rewrite dget_dset_other by discriminate|]; apply dget_dset_same.
  Qed.

  Theorem section_both explain po recipe mf mt mto mat d num cc text notes :
    compile_vars recipe <> None -> mf <> 0 -> clean (VDict d) -> (mto = None \/ mto = Some mt) -> dget (KStr $"MAT") d = Some (vint mat) -> ctrl_fits {| MAT := mat; MF := mf; MT := mt |} ->
    write_section (fun a b e => fst (write_recipe en explain recipe po a b e)) ro wo false mf mt (Parsed d) = Ok (num, cc) ->
    compiled_write o preserve recipe mf mto d = Val (text, notes) -> regular notes ->
    cc = {| MAT := mat; MF := mf; MT := mt |} /\ exists lines, text = text_of lines /\ Forall2 (line_alike wo whole) num lines.
  Proof.
    intros CV NZ CL MO GM CF PY CP RN. unfold compile_vars in CV. unfold compiled_write in CP.
    destruct (recipe_parts recipe) as [[f b]|] eqn:RP; [|now elim CV].
    destruct (reg_fields [] [] start_vars (cont_fields f)) as [cur|] eqn:RF; [|now elim CV]. destruct (reg_block [] [] cur b) as [F|] eqn:RB; [|now elim CV]. clear CV.
    assert (exists cs r, recipe = BCons (ICont true cs f) r /\ ends_with_send r = Some b) as (cs & r & -> & ES).
    { unfold recipe_parts in RP. destruct recipe as [|[head cs f0| | | | | | | | | | | |] r]; try discriminate. destruct head; [|discriminate].
      destruct (ends_with_send r) as [b0|] eqn:E; [|discriminate]. injection RP as <- <-. eauto. }
    clear RP. cbs CP as [c st0] WS. cbs CP as st1 C1. cbs CP as st2 C2. cbs CP as st3 C3. injection CP as <- <-.
    unfold fields_reg in C2. rewrite RF in C2.
    (* Python *)
    cbn [write_section] in PY. unfold write_recipe in PY.
    destruct (set_ctrl_default $"MF" mf d) as [d1 ok1] eqn:S1. destruct ok1; [|discriminate]. cbn [negb] in PY.
    destruct (set_ctrl_default $"MT" mt d1) as [d2 ok2] eqn:S2. destruct ok2; [|discriminate]. cbn [negb] in PY.
    destruct (run_section en _ _) as [r0 s9] eqn:RS. destruct (unwind 0 (ps_up s9) (ps_dic s9)) as [u0 dfin]. 
    destruct r0 as [[]|]; [|cbn [fst bind] in PY; discriminate]. cbn [fst] in PY.
    destruct (get_ctrl (ps_dic s9) (ps_up s9)) as [c9|] eqn:GC9; [|discriminate]. cbn [bind] in PY.
    replace (mf =? 0) with false in PY by (symmetry; now apply Z.eqb_neq).
    destruct (add_linenumbers_to_section wo (removelast (ps_lines s9))) as [num0|] eqn:NUM; [|discriminate]. cbn [bind] in PY. injection PY as <- <-.
    unfold run_section in RS. apply mbind_ok in RS as ([] & s0 & I0 & RS). injection I0 as <-. apply mbind_ok in RS as ([] & s8 & EX & RM).
    cbn [reset_state ps_dic] in EX.
    pose proof (clean_defaults _ _ _ _ _ S1 S2 CL) as CL2.
    assert (IW : init_working d2 = d2 ++ [w_abb; w_sta]) by (rewrite <- (app_nil_r d2) at 1; rewrite init_app; auto).
    pose (s0 := set_dic (init_working d2) (reset_state po [] d2)).
    change (exec_block en (BCons (ICont true cs f) r) s0 = (Ok tt, s8)) in EX. assert (L0 : ps_look s0 = None) by reflexivity.
    rewrite exec_cons_eq in EX. unfold mbind at 1, should_proceed in EX. rewrite L0 in EX.
    apply mbind_ok in EX as ([] & s1 & H1 & H2). change (exec en (ICont true cs f)) with (guarded true (do_cont en true cs f)) in H1.
    unfold guarded, mbind, should_proceed in H1. rewrite L0 in H1.
    destruct (head_ctrl en true cs f s0 s1 eq_refl H1) as [cx HC]. unfold s0 in HC. cbn [set_dic ps_dic ps_up reset_state] in HC. rewrite IW in HC.
    destruct (same_start _ _ _ _ _ _ _ _ _ _ _ CL GM MO S1 S2 eq_refl HC WS) as (EC & EST & _ & G1 & G2 & G3).
    replace (mf =? 0) with false in EST by (symmetry; now apply Z.eqb_neq). cbn [andb] in EST.
    assert (CFc : ctrl_fits c) by now rewrite EC.
    assert (R0 : wrel c [] [] s0 (w_c st0)).
    { apply (wrel_init c [] [] (reset_state po [] d2) (w_c st0) []); [|subst st0; cbn; now rewrite app_nil_r|now left].
      rewrite EST. apply start_rel; rewrite ?EC; assumption. }
    assert (N0 : 0 <= w_num st0) by (rewrite EST; cbn; lia).
    cbn [wrun] in C3. cbs C3 as sl SL. injection C3 as <-. cbn [flush w_line w_notes w_out w_draft] in *.
    assert (RN1 : regular (w_notes st1)) by (eapply wgrows_forall; [eapply (proj1 (proj2 (wrun_grows _ _ _)))|exact RN]; exact C2).
    assert (X1 : exec en (ICont true cs f) s0 = (Ok tt, s1)).
    { change (exec en (ICont true cs f)) with (guarded true (do_cont en true cs f)). unfold guarded, mbind, should_proceed. rewrite L0. exact H1. }
    destruct (send_split _ _ _ _ ES (fk_look _ _ _ (proj1 (exec_frame en) (ICont true cs f) s0 _ _ X1) L0) H2) as (s2 & HB & HS).
    pose proof (cont_both o preserve wo whole c en eq_refl eq_refl SO CFc _ _ _ _ _ _ _ _ _ _ R0 H1 C1 RN1) as W1.
    pose proof (wstep_rel _ _ _ _ _ _ _ _ _ _ W1 R0) as R1. pose proof (wstep_num _ _ _ _ _ _ _ _ W1 N0) as N1.
    pose proof (proj1 (proj2 (wrun_both o preserve wo whole c en eq_refl eq_refl SO CFc)) b _ _ _ _ RB _ _ _ _ R1 N1 HB C2 RN) as W2.
    pose proof (wstep_trans _ _ _ _ _ _ _ _ _ _ W1 W2) as W. destruct W as (bs & bs' & Es2 & FA & LB & KP & OUT & NU).
    pose proof (wstep_rel _ _ _ _ _ _ _ _ _ _ W2 R1) as R2.
    change (exec en ISend) with (guarded true (do_send en)) in HS. unfold guarded, mbind, should_proceed in HS. rewrite (wr_look _ _ _ _ _ R2) in HS.
    unfold do_send in HS. cbn [e_write write_env] in HS. apply write_ok in HS as (ls & H3 & ->). unfold the_ctrl in H3. rewrite (wr_ctrl _ _ _ _ _ R2) in H3. cbn [bind e_wo e_blank write_env] in H3.
    assert (NZc : MF c <> 0) by now rewrite EC.
    destruct (send_same o wo SO KE NE c CFc NZc) as (ls' & P1 & P2). rewrite P1 in H3. injection H3 as <-. rewrite SL in P2. apply val_inj in P2. subst sl.
    assert (exists l, ls' = [l]) as [l ->]. { unfold write_send in P1. rewrite (py_end o wo _ _ SO KE NE) in P1. injection P1 as <-. eauto. }
    assert (D8 : ps_dic (add_lines [l] s2) = d2 ++ [] ++ [w_abb; w_sta]) by (rewrite Es2; exact IW).
    rewrite (remove_app _ d2 [] CL2 (or_introl eq_refl) D8) in RM. injection RM as <-.
    cbn [set_dic add_lines ps_lines ps_dic ps_up] in GC9, NUM |- *. rewrite Es2 in GC9, NUM |- *. cbn [add_lines ps_lines ps_up] in GC9, NUM |- *.
    change (ps_lines s0) with (@nil str) in *. cbn [app] in NUM |- *. rewrite removelast_last in NUM. rewrite last_last.
    change (ps_up s0) with (@nil frame) in GC9. rewrite app_nil_r in GC9. unfold get_ctrl in GC9. rewrite ctrl_dic_nil, G1, G2, G3 in GC9. injection GC9 as <-. split; [reflexivity|].
    assert (WD : w_width wo = 11%nat) by apply SO. assert (LN : cw_linenum o = w_linenum wo) by (symmetry; apply SO).
    rewrite (numbered wo c bs num0 WD CFc NZc LB NUM).
    exists (finished wo c 0 bs' ++ [l]). split.
    - rewrite OUT, EST. cbn [w_out w_num app]. rewrite (finished_text o wo c LN) by lia. unfold text_of. now rewrite map_app, concat_app.
    - apply Forall2_app; [now apply line_ends|]. constructor; [apply line_alike_refl|constructor].
  Qed.

  (** the head of the tape *)
  Theorem head_both explain po recipe mto mat d num cc text notes :
    compile_text recipe <> None -> clean (VDict d) -> (mto = None \/ mto = Some 0) -> dget (KStr $"MAT") d = Some (vint mat) -> ctrl_fits {| MAT := mat; MF := 0; MT := 0 |} ->
    write_section (fun a b e => fst (write_recipe en explain recipe po a b e)) ro wo false 0 0 (Parsed d) = Ok (num, cc) ->
    compiled_write_text o preserve recipe 0 mto d = Val (text, notes) -> Forall (regular_wnote o preserve wo true) notes ->
    cc = {| MAT := mat; MF := 0; MT := 0 |} /\ text = text_of num.
  Proof.
    intros CV CL MO GM CF PY CP RN.
    assert (exists cs fs v, recipe = BCons (IText cs fs) BNil /\ reg_text [] start_vars true 0 fs = Some v) as (cs & fs & v & -> & RG).
    { unfold compile_text in CV. destruct recipe as [|[] [|]]; try (now elim CV). destruct (reg_text _ _ _ _ _) eqn:E; [|now elim CV]. eauto. }
    unfold compiled_write_text in CP. cbs CP as [c st0] WS. cbs CP as st1 C1. injection CP as <- <-.
    cbn [write_section] in PY. unfold write_recipe in PY.
    destruct (set_ctrl_default $"MF" 0 d) as [d1 ok1] eqn:S1. destruct ok1; [|discriminate]. cbn [negb] in PY.
    destruct (set_ctrl_default $"MT" 0 d1) as [d2 ok2] eqn:S2. destruct ok2; [|discriminate]. cbn [negb] in PY.
    destruct (run_section en _ _) as [r0 s9] eqn:RS. destruct (unwind 0 (ps_up s9) (ps_dic s9)) as [u0 dfin].
    destruct r0 as [[]|]; [|cbn [fst bind] in PY; discriminate]. cbn [fst] in PY.
    destruct (get_ctrl (ps_dic s9) (ps_up s9)) as [c9|] eqn:GC9; [|discriminate]. cbn [bind] in PY. change (0 =? 0) with true in PY. cbn match in PY.
    destruct (add_linenumbers_to_section wo (ps_lines s9)) as [num0|] eqn:NUM; [|discriminate]. cbn [bind] in PY. injection PY as <- <-.
    unfold run_section in RS. apply mbind_ok in RS as ([] & s0 & I0 & RS). injection I0 as <-. apply mbind_ok in RS as ([] & s8 & EX & RM).
    cbn [reset_state ps_dic] in EX. pose proof (clean_defaults _ _ _ _ _ S1 S2 CL) as CL2.
    assert (IW : init_working d2 = d2 ++ [w_abb; w_sta]) by (rewrite <- (app_nil_r d2) at 1; rewrite init_app; auto).
    pose (s0 := set_dic (init_working d2) (reset_state po [] d2)).
    change (exec_block en (BCons (IText cs fs) BNil) s0 = (Ok tt, s8)) in EX. assert (L0 : ps_look s0 = None) by reflexivity.
    rewrite exec_cons_eq in EX. unfold mbind at 1, should_proceed in EX. rewrite L0 in EX.
    apply mbind_ok in EX as ([] & s1 & H1 & H2). rewrite exec_nil_eq in H2. injection H2 as <-.
    change (exec en (IText cs fs)) with (guarded true (do_text en cs fs)) in H1.
    unfold guarded, mbind, should_proceed in H1. rewrite L0 in H1.
    destruct (text_ctrl en cs fs s0 s1 eq_refl H1) as (cx & lx & HC & EL). unfold s0 in HC. cbn [set_dic ps_dic ps_up reset_state] in HC. rewrite IW in HC.
    destruct (same_start _ _ _ _ _ _ _ _ _ _ _ CL GM MO S1 S2 eq_refl HC WS) as (EC & EST & _ & G1 & G2 & G3).
    assert (CFc : ctrl_fits c) by now rewrite EC.
    assert (R0 : wrel c [] [] s0 (w_c st0)).
    { apply (wrel_init c [] [] (reset_state po [] d2) (w_c st0) []); [|subst st0; cbn; now rewrite app_nil_r|now left].
      rewrite EST. apply start_rel; rewrite ?EC; assumption. }
    destruct (text_both o preserve wo true c en eq_refl eq_refl SO CFc [] [] _ _ _ _ _ _ _ _ R0 RG H1 C1 RN) as (bs & bs' & Es & FA & LB & _ & OUT & _).
    assert (D8 : ps_dic s1 = d2 ++ [] ++ [w_abb; w_sta]) by (rewrite Es; exact IW).
    rewrite (remove_app _ d2 [] CL2 (or_introl eq_refl) D8) in RM. injection RM as <-.
    cbn [set_dic ps_lines ps_dic ps_up] in GC9, NUM |- *. rewrite Es in GC9, NUM, EL. 
    change (ps_lines (add_lines (map (ctl c) bs) s0)) with (map (ctl c) bs) in NUM. change (ps_up (add_lines (map (ctl c) bs) s0)) with (@nil frame) in GC9.
    assert (L1 : map (ctl c) bs = [lx]) by (apply (f_equal ps_lines) in EL; exact EL). destruct bs as [|b [|]]; try discriminate L1. clear L1 lx EL.
    assert (bs' = [b]) as ->.
    { inversion FA as [|? b' ? r' AB FR]; subst. inversion FR; subst. destruct AB as [<-|[W _]]; [reflexivity|discriminate]. }
    rewrite app_nil_r in GC9. unfold get_ctrl in GC9. rewrite ctrl_dic_nil, G1, G2, G3 in GC9. injection GC9 as <-. split; [reflexivity|].
    rewrite OUT, EST. cbn [w_out w_num app tab_text]. assert (WD : w_width wo = 11%nat) by apply SO. assert (LN : w_linenum wo = cw_linenum o) by apply SO.
    inversion LB as [|? ? L66 _]; subst.
    cbn [map] in NUM. unfold add_linenumbers_to_section in NUM. change (get_line [ctl {| MAT := mat; MF := 0; MT := 0 |} b] 0) with (Ok (ctl {| MAT := mat; MF := 0; MT := 0 |} b) : result str) in NUM.
    set (c := {| MAT := mat; MF := 0; MT := 0 |}) in *.
    cbn [bind] in NUM. rewrite (control_in_ctrl c (ctl c b)) in NUM; [|exact CF|exact WD|exists b, []; rewrite app_nil_r; auto].
    cbn [bind map] in NUM. rewrite WD, firstn_all2 in NUM by (unfold ctl; rewrite app_length, L66, (len_ctrl c CF); cbn; lia).
    unfold text_of. unfold tl, lnum. rewrite LN in NUM. destruct (cw_linenum o); cbn [negb] in NUM; injection NUM as <-; cbn [map concat number_lines]; rewrite !app_nil_r; unfold ctl; rewrite <- !app_assoc; reflexivity.
  Qed.
End Top.
