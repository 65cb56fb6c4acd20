(** Whole recipes: the HEAD and SEND records around the instructions. *)
From Coq Require Import Ascii String ZArith Bool Lia List.
From Verif Require Import PyBase ProofPyBase PyFloat ModelFortran ModelRecords ModelNum ModelRecipe ModelInterp
  ModelCpp ModelCppTab ModelCppArr SpecCpp SpecCppTab SpecFields SpecCppRead ModelCppGen SpecCppGen.
From Verif Require Import ProofInterp ProofInterpSec ProofInterpFrame ProofInterpMap ProofFields ProofTape.
From Verif Require Import SpecTape ProofCppRead.
From Verif Require Import ProofCpp ProofCppArr ProofCppGenRead ProofCppGenMap ProofCppGenEval ProofCppGenReg ProofCppGenSec ProofCppGenRun.
Import ListNotations.
Open Scope Z_scope.

Lemma send_cons i r b : ends_with_send (BCons i r) = Some b ->
  (i = ISend /\ r = BNil /\ b = BNil) \/ exists r', ends_with_send r = Some r' /\ b = BCons i r'.
Proof.
  intros H. destruct r as [|j r]; [destruct i; try discriminate H; injection H as <-; auto|]. right.
  assert (E : match ends_with_send (BCons j r) with Some r' => Some (BCons i r') | None => None end = Some b) by (destruct i; exact H).
  destruct (ends_with_send (BCons j r)) as [r'|]; [|discriminate E]. injection E as <-. eauto.
Qed.
Lemma send_names : forall r b, ends_with_send r = Some b ->
  own_names_block b = own_names_block r /\ used_block b = used_block r /\ (forall outer, apart_block outer r -> apart_block outer b).
Proof.
  induction r as [|i r IH]; intros b H; [discriminate H|]. apply send_cons in H as [(-> & -> & ->)|(r' & E & ->)]; [split; [reflexivity|split; [reflexivity|intros; exact Logic.I]]|].
  destruct (IH _ E) as (A & U & B). cbn [own_names_block used_block apart_block]. split; [now rewrite A|]. split; [now rewrite U|]. intros outer [P Q]. split; auto.
Qed.

Lemma line_tl v c lines l r : cpp_read_line v c lines = Val (l, r) -> r = List.tl lines.
Proof.
  intros H. unfold cpp_read_line in H. destruct lines as [|a b]; [discriminate|]. destruct v; [|injection H as _ <-; reflexivity].
  cbs H as m1 Q1. cbs H as m2 Q2. cbs H as m3 Q3. destruct (_ && _); [|discriminate]. injection H as _ <-. reflexivity.
Qed.
Lemma cont_ctrl ro lines p a c q : read_cont ro lines p = Ok (a, c, q) -> exists l, nth_error lines p = Some l /\ read_ctrl ro l = Ok c.
Proof.
  unfold read_cont, get_line. destruct (nth_error lines p) as [l|]; [|discriminate]. cbn [bind]. intros H. exists l. split; [reflexivity|].
  repeat match type of H with bind ?x _ = Ok _ => destruct x eqn:?; [|discriminate H]; cbn [bind] in H end. injection H as _ <- _. reflexivity.
Qed.

Section Top.
  Variables (body ends : list str) (send : str) (o : copts) (ro : ropts) (wo : wopts) (depth : nat).
  Hypothesis SR : same_reading o ro.
  Hypothesis NL : Forall plain_line body.
  Notation en := (read_env ro wo depth).
  Notation CL := (c_lines body ends).
  Notation PL := (py_lines body send).

  Lemma send_run : forall r b s s', ends_with_send r = Some b -> ps_look s = None -> exec_block en r s = (Ok tt, s') ->
    exists s1, exec_block en b s = (Ok tt, s1) /\ exec en ISend s1 = (Ok tt, s').
  Proof.
    induction r as [|i r IH]; intros b s s' H LK PY; [discriminate H|]. rewrite exec_cons_eq in PY. unfold mbind at 1, should_proceed in PY. rewrite LK in PY.
    apply mbind_ok in PY as ([] & s1 & P1 & P2). apply send_cons in H as [(-> & -> & ->)|(r' & E & ->)].
    - rewrite exec_nil_eq in P2 |- *. injection P2 as <-. exists s. auto.
    - pose proof (proj1 (exec_ahead ro wo depth) i _ _ _ P1) as (_ & _ & _ & L1 & _). destruct (IH _ _ _ E (L1 LK) P2) as (s2 & A & B).
      exists s2. split; [|exact B]. rewrite exec_cons_eq. unfold mbind at 1, should_proceed. rewrite LK. unfold mbind. now rewrite P1.
  Qed.

  Lemma top_start F cc : sub start_vars F -> frel reserved (wk_in None) F (init_working []) {| cf_vars := start_cells cc; cf_dict := []; cf_shift := [] |}.
  Proof.
    intros S. split; cbn [cf_vars cf_dict].
    - intros z. reflexivity.
    - intros z. reflexivity.
    - intros x X. unfold start_cells, init_working. cbn [vget dset dget key_eqb].
      destruct (str_eqb x $"MAT") eqn:E1. { apply str_eqb_eq in E1. subst x. exfalso. apply X. now left. }
      destruct (str_eqb x $"MF") eqn:E2. { apply str_eqb_eq in E2. subst x. exfalso. apply X. right. now left. }
      destruct (str_eqb x $"MT") eqn:E3. { apply str_eqb_eq in E3. subst x. exfalso. apply X. right. right. now left. }
      destruct (dget (KStr x) (dset (KStr $"__startidcs") (VDict []) (dset (KStr $"__abbrevs") (VNames []) []))) eqn:E; [|exact E].
      exfalso. apply X. rewrite dget_dset_other in E. { rewrite dget_dset_other in E; [discriminate|]. intros Q. injection Q as ->. apply X. cbn. tauto. }
      intros Q. injection Q as ->. apply X. cbn. tauto.
    - intros x d. unfold start_cells. cbn [vget].
      destruct (str_eqb x $"MAT") eqn:E1. { apply str_eqb_eq in E1. subst x. intros H. injection H as <-. exists (KScal TInt). split; [now apply S|exact Logic.I]. }
      destruct (str_eqb x $"MF") eqn:E2. { apply str_eqb_eq in E2. subst x. intros H. injection H as <-. exists (KScal TInt). split; [now apply S|exact Logic.I]. }
      destruct (str_eqb x $"MT") eqn:E3. { apply str_eqb_eq in E3. subst x. intros H. injection H as <-. exists (KScal TInt). split; [now apply S|exact Logic.I]. }
      discriminate.
    - intros x v H. discriminate H.
    - apply dset_nodup, dset_nodup. constructor.
    - unfold start_cells. cbn [map fst]. repeat constructor; cbn [In]; intuition discriminate.
    - intros x X. unfold reserved, working in *. cbn [In] in *. tauto.
    - apply working_cases; reflexivity.
  Qed.
  (** after HEAD *)
  Lemma top_head F d f cc : frel reserved (wk_in None) F d f -> sub start_vars F ->
    (forall x, In x [$"MAT"; $"MF"; $"MT"] -> vget x (cf_vars f) = vget x (start_cells cc)) ->
    frel working (wk_in None) F (dset (KStr $"MT") (vint (MT cc)) (dset (KStr $"MF") (vint (MF cc)) (dset (KStr $"MAT") (vint (MAT cc)) d))) f.
  Proof.
    intros R S K. assert (NUM : forall z, cell_rel (vint z) (CScal (vint z))) by (intros z; constructor; reflexivity). split.
    - intros z. rewrite !dget_dset_other by discriminate. apply R.
    - apply R.
    - intros x X. destruct (str_eqb x $"MAT") eqn:E1; [apply str_eqb_eq in E1; subst x|].
      { rewrite K by now left. change (vget $"MAT" (start_cells cc)) with (Some (CScal (vint (MAT cc)))). exists (vint (MAT cc)). split; [|apply NUM].
        rewrite !dget_dset_other by discriminate. apply dget_dset_same. }
      destruct (str_eqb x $"MF") eqn:E2; [apply str_eqb_eq in E2; subst x|].
      { rewrite K by (right; now left). change (vget $"MF" (start_cells cc)) with (Some (CScal (vint (MF cc)))). exists (vint (MF cc)). split; [|apply NUM].
        rewrite dget_dset_other by discriminate. apply dget_dset_same. }
      destruct (str_eqb x $"MT") eqn:E3; [apply str_eqb_eq in E3; subst x|].
      { rewrite K by (right; right; now left). change (vget $"MT" (start_cells cc)) with (Some (CScal (vint (MT cc)))). exists (vint (MT cc)). split; [|apply NUM].
        apply dget_dset_same. }
      apply seq_neq in E1, E2, E3. rewrite !dget_dset_other by congruence. apply (fr_entry _ _ _ _ _ R).
      unfold reserved, working in *. cbn [In] in *. intuition congruence.
    - apply R.
    - apply R.
    - apply dset_nodup, dset_nodup, dset_nodup, R.
    - apply R.
    - auto.
    - intros x X. assert (x <> $"MAT" /\ x <> $"MF" /\ x <> $"MT") as (N1 & N2 & N3) by (revert x X; apply working_cases; repeat split; discriminate).
      rewrite !dget_dset_other by congruence. now apply (fr_work _ _ _ _ _ R).
  Qed.

  Theorem recipe_both recipe po d po' d' left notes : compile_vars recipe <> None -> names_apart recipe ->
    compiled_run o recipe (body ++ ends) = Val (d', left, notes) -> Forall regular_note notes ->
    parse_recipe en recipe po (map with_break body ++ [send]) = (Ok d, po') -> same_data d d' /\
    ((forall l c, In l body -> read_ctrl ro (with_break l) = Ok c -> MT c <> 0) -> left = List.tl ends).
  Proof.
    intros CV (D1 & D2) CR NT PR. unfold compile_vars in CV. unfold compiled_run in CR.
    destruct (recipe_parts recipe) as [[f b]|] eqn:RP; [|now elim CV].
    destruct (reg_fields [] [] start_vars (cont_fields f)) as [cur|] eqn:RF; [|now elim CV]. destruct (reg_block [] [] cur b) as [F|] eqn:RB; [|now elim CV]. clear CV.
    assert (exists cs r, recipe = BCons (ICont true cs f) r /\ ends_with_send r = Some b) as (cs & r & -> & ES).
    { unfold recipe_parts in RP. destruct recipe as [|[head cs f0| | | | | | | | | | | |] r]; try discriminate. destruct head; [|discriminate].
      destruct (ends_with_send r) as [b0|] eqn:E; [|discriminate]. injection RP as <- <-. eauto. }
    clear RP. destruct (body ++ ends) as [|l ls] eqn:CLE; [discriminate|].
    cbs CR as mat M1. cbs CR as mf M2. cbs CR as mt M3. set (c := {| MAT := mat; MF := mf; MT := mt |}) in *.
    cbs CR as st1 C1. cbs CR as st2 C2. cbs CR as st3 C3. injection CR as <- <- <-.
    unfold fields_reg in C2. rewrite RF in C2.
    assert (N3 : k_notes st3 = k_notes st2 /\ k_cur st3 = k_cur st2 /\ k_lines st3 = List.tl (k_lines st2)).
    { cbn [crun] in C3. cbs C3 as rr E3. injection C3 as <-. split; [reflexivity|]. split; [reflexivity|]. cbn [with_lines k_lines].
      unfold cpp_read_send_checked in E3. cbs E3 as [ll r3] RL. apply line_tl in RL. cbs E3 as ok OK. destruct ok; [|discriminate].
      destruct (co_validate o); [|injection E3 as <-; exact RL]. cbs E3 as m1 Q1. cbs E3 as m2 Q2. destruct (_ && _); [|discriminate]. injection E3 as <-. exact RL. }
    destruct N3 as (N3 & K3 & T3). rewrite T3. rewrite N3 in NT. rewrite K3. clear C3 N3 K3 T3 st3.
    unfold parse_recipe in PR. destruct (run_section en _ _) as [[[]|] s9] eqn:RS; [|discriminate]. injection PR as <- _.
    unfold run_section in RS. apply mbind_ok in RS as ([] & s0 & I0 & RS). injection I0 as <-. apply mbind_ok in RS as ([] & s8 & EX & RM).
    pose (s0 := set_dic (init_working []) (reset_state po (map with_break body ++ [send]) [])).
    change (exec_block en (BCons (ICont true cs f) r) s0 = (Ok tt, s8)) in EX. assert (L0 : ps_look s0 = None) by reflexivity.
    rewrite exec_cons_eq in EX. unfold mbind at 1, should_proceed in EX. rewrite L0 in EX.
    apply mbind_ok in EX as ([] & s1 & H1 & H2). change (exec en (ICont true cs f)) with (guarded true (do_cont en true cs f)) in H1.
    rewrite guarded_run in H1 by exact L0.
    unfold do_cont in H1. cbn [read_env e_write e_ro] in H1. apply mbind_ok in H1 as ([rr cc] & t1 & RW & H1).
    apply mbind_ok in H1 as ([] & t2 & SP & H1). apply mbind_ok in H1 as ([] & t3 & MR & H1). injection H1 as <-.
    apply spec_same in SP. subst t2.
    pose proof (still_fields ro wo depth _ _ _ _ MR) as (LO & UP & _ & LK & SL & SO).
    unfold read_with in RW. change (ps_lines s0) with PL in RW. change (ps_ofs s0) with O in RW.
    destruct (skip_blank_lines PL 0) as [p|] eqn:SK; [|discriminate RW]. destruct (read_cont ro PL p) as [[[r0 c0] q]|] eqn:RC; [|discriminate RW].
    injection RW as -> -> <-. cbn [advance ps_ofs ps_loops ps_up ps_look ps_lines s0 set_dic reset_state] in LO, UP, LK, SL, SO.
    (* the end *)
    apply (send_run _ _ _ _ ES) in H2 as (s7 & B7 & S7); [|cbn [set_dic ps_look]; now apply LK].
    pose proof (proj2 (exec_ahead ro wo depth) _ _ _ _ B7) as (_ & _ & _ & LK7 & L7 & O7). cbn [set_dic ps_look ps_lines ps_ofs] in LK7, L7, O7. rewrite SL in L7. rewrite SO in O7.
    assert (E7 : (ps_ofs s7 <= length body)%nat /\ ps_dic s8 = ps_dic s7 /\
      ((forall l c, In l body -> read_ctrl ro (with_break l) = Ok c -> MT c <> 0) -> ps_ofs s7 = length body)).
    { change (exec en ISend) with (guarded true (do_send en)) in S7. rewrite guarded_run in S7 by auto. unfold do_send in S7. cbn [read_env e_write e_ro] in S7.
      rewrite L7 in S7. destruct (skip_blank_lines _ (ps_ofs s7)) as [p7|] eqn:SK7; [|discriminate]. destruct (read_send ro _ p7) as [[[a7 b7] q7]|] eqn:RS7; [|discriminate].
      injection S7 as <-. pose proof SK7 as SK8. apply skip_ok in SK8 as (LL & _).
      unfold read_send in RS7. destruct (read_cont ro (map with_break body ++ [send]) p7) as [[[a b0] d0]|] eqn:RC7; [|discriminate].
      pose proof RC7 as RC8. unfold read_cont, get_line in RC7. destruct (nth_error (map with_break body ++ [send]) p7) eqn:NE; [|discriminate].
      assert (p7 < length (map with_break body ++ [send]))%nat by (apply nth_error_Some; congruence). rewrite app_length, map_length in H. cbn [length] in H.
      split; [lia|]. split; [reflexivity|]. intros NM. assert (ps_ofs s7 < length body \/ ps_ofs s7 = length body)%nat as [LT|] by lia; [exfalso|assumption].
      pose proof (skip_line body ends send NL _ _ SK7 LT) as ->. rewrite nth_error_app1 in NE by (rewrite map_length; lia). rewrite nth_error_map in NE.
      destruct (nth_error body (ps_ofs s7)) as [lb|] eqn:NB; [|discriminate]. injection NE as <-. clear RC7.
      destruct (cont_ctrl _ _ _ _ _ _ RC8) as (lc & N8 & R8). rewrite nth_error_app1 in N8 by (rewrite map_length; lia). rewrite nth_error_map, NB in N8. injection N8 as <-.
      apply (NM lb b0 (nth_error_In _ _ NB) R8). cbn [bind] in RS7. destruct (_ || negb (MT b0 =? 0)) eqn:ZM in RS7; [discriminate|]. apply orb_false_iff in ZM as [_ ZM].
      apply negb_false_iff in ZM. now apply Z.eqb_eq. }
    destruct E7 as (E7 & D7 & T7).
    pose proof RC as RC'. apply read_cont_adv in RC' as [_ ->].
    assert (p = O) as -> by (apply (skip_line body ends send NL _ _ SK); lia).
    destruct (cont_read body ends send o ro SR NL _ _ _ _ RC ltac:(lia)) as (l' & NE & NB & _ & RCT & R0 & R1 & R2 & R3 & R4 & R5).
    unfold c_lines in NE. rewrite CLE in NE. cbn [nth_error] in NE. injection NE as <-.
    assert (cc = c) by (eapply ctrl_line; eauto). subst cc.
    (* HEAD *)
    unfold run_cont in C1. cbs C1 as [line st0] NX.
    assert (N1 : Forall regular_note (k_notes st1)).
    { eapply grows_regular; [|exact NT]. eapply (proj1 (proj2 (crun_grows o c))). exact C2. }
    pose proof (next_line_numeric _ _ _ _ _ NX (grows_regular _ _ (run_fields_grows _ _ _ _ _ _ _ _ C1) N1)) as NU.
    apply next_line_grows in NX as (_ & K1 & K2). cbn [k_lines] in K1. injection K1 as EL K1. subst line.
    destruct (cont_line_vals o ro SR l rr f (conj NB NU) R0 R1 R2 R3 R4 R5) as (LV & _).
    assert (SV : sub start_vars F).
    { eapply sub_trans; [apply (reg_fields_adds _ _ _ _ _ RF)|]. apply (proj1 (proj2 reg_adds) _ _ _ _ _ RB). }
    destruct (send_names _ _ ES) as (SN & SU & SA).
    assert (NM : forall x, In x (cf_names (cont_fields f)) -> In x (own_names_block (BCons (ICont true cs f) r))).
    { intros x X. cbn [own_names_block own_names]. apply in_or_app. left. now apply cf_names_cont. }
    destruct (read_both en o reserved (wk_in None) F [] [] l (cont_fields f) [ModelRecords.C1 rr; ModelRecords.C2 rr; L1 rr; L2 rr; ModelRecords.N1 rr; N2 rr] start_vars cur (advance 0 1 s0) st0 t3 st1) as ((dd & ED) & FR & (KA & KB & KC)); auto.
    { apply (proj1 (proj2 reg_adds) _ _ _ _ _ RB). }
    { rewrite K2. apply top_start. exact SV. }
    { rewrite K2. reflexivity. }
    { split; [reflexivity|constructor]. }
    assert (CELLS : forall x, In x [$"MAT"; $"MF"; $"MT"] -> vget x (cf_vars (k_cur st1)) = vget x (start_cells c)).
    { intros x X. etransitivity; [eapply run_fields_other; [|exact C1]|rewrite K2; reflexivity].
      intros Y. apply (D1 x (NM x Y)). unfold reserved. cbn [In] in *. tauto. }
    pose proof (top_head F _ _ c FR SV CELLS) as FR1.
    set (s1 := set_dic (dset (KStr $"MT") (vint (MT c)) (dset (KStr $"MF") (vint (MF c)) (dset (KStr $"MAT") (vint (MAT c)) (ps_dic t3)))) t3) in *.
    assert (X : ctx F [] (own_names_block (BCons (ICont true cs f) r)) (used_block r) (own_names_block (BCons (ICont true cs f) r) ++ reserved)).
    { assert (KN : forall x k, kget x F = Some k -> In x [$"MAT"; $"MF"; $"MT"] \/ In x (own_names_block (BCons (ICont true cs f) r))).
      { intros x k K. apply (proj1 (proj2 reg_adds) _ _ _ _ _ RB) in K as [K|K].
        - apply (reg_fields_adds _ _ _ _ _ RF) in K as [K|K]; [|right; auto]. left. unfold start_vars in K. cbn [kget] in K.
          destruct (str_eqb x $"MAT") eqn:E1; [apply str_eqb_eq in E1; subst; now left|]. destruct (str_eqb x $"MF") eqn:E2; [apply str_eqb_eq in E2; subst; right; now left|].
          destruct (str_eqb x $"MT") eqn:E3; [apply str_eqb_eq in E3; subst; right; right; now left|discriminate].
        - right. cbn [own_names_block]. apply in_or_app. right. now rewrite <- SN. }
      assert (WR : forall x, In x working -> In x reserved) by (intros x; unfold working, reserved; cbn [In]; tauto).
      split.
      - intros [|m] [|n] G H x k j _ A B K J; cbn [nth_error] in A, B; auto; [destruct n|destruct m|destruct m]; discriminate.
      - intros G x k [<-|[]] K. apply in_or_app. destruct (KN _ _ K) as [I|I]; [right; unfold reserved; cbn [In] in *; tauto|left; exact I].
      - intros G x k [<-|[]] K W. destruct (KN _ _ K) as [I|I]; [|exact (D1 x I (WR x W))].
        revert I. revert x W K. refine (working_cases _ _ _ _); intros _; cbn [In]; intuition discriminate.
      - intros x I W. exact (D1 x I (WR x W)). }
    assert (P1 : pre body ends send (wk_in None) F [] [] s1 st1).
    { split; [|split].
      - split; cbn [s1 set_dic ps_dic ps_up ps_loops ps_look].
        + exact FR1.
        + rewrite UP, KB, K2. constructor.
        + rewrite KC, K2, LO. reflexivity.
        + rewrite LO. split; [reflexivity|constructor].
        + now apply LK.
      - cbn [s1 set_dic ps_lines]. exact SL.
      - cbn [s1 set_dic ps_ofs]. rewrite SO, KA, K2. cbn [with_lines k_lines]. rewrite <- K1. unfold c_lines. rewrite CLE. reflexivity. }
    destruct (proj1 (proj2 (run_both body ends send o ro wo depth c SR NL)) b (wk_in None) F [] [] _ _ _ [] cur F X (Forall2_nil _) RB (sub_refl F)
      ltac:(intros x I; cbn [own_names_block]; apply in_or_app; right; now rewrite <- SN) ltac:(intros x I; now rewrite <- SU) (SA _ (proj2 D2)) _ _ _ _ P1 B7 C2 (conj E7 NT)) as ((CO & _ & KL2) & _).
    split; [|intros MTN; rewrite KL2, (T7 MTN); unfold c_lines; rewrite skipn_app, skipn_all, Nat.sub_diag; reflexivity].
    assert (FR8 : frel working (wk_in None) F (ps_dic s8) (k_cur st2)) by (rewrite D7; apply CO).
    destruct (remove_both None F (k_cur st2) s8 s9 FR8 RM) as (d9 & -> & FR9). cbn [set_dic ps_dic].
    eapply stored_alike; [exact FR9| | |].
    - intros x k K. eapply (cx_plain _ _ _ _ _ X); [now left|exact K].
    - intros x I. rewrite (fr_work _ _ _ _ _ FR9) by exact I. revert x I. apply working_cases; reflexivity.
    - reflexivity.
  Qed.
  (** ** A recipe of one TEXT record *)

  Lemma texts_new line : forall fs first ofs cur cur' st st', reg_text [] cur first ofs fs = Some cur' ->
    (forall x, kget x cur = None -> vget x (cf_vars (k_cur st)) = None) -> k_loops st = [] ->
    run_texts first ofs line fs st = Val st' -> k_notes st' = k_notes st /\ (forall x, ~ In x (text_names fs) -> vget x (cf_vars (k_cur st')) = vget x (cf_vars (k_cur st))).
  Proof.
    induction fs as [|[u n] fs IH]; intros first ofs cur cur' st st' RG NV KL CP; cbn [reg_text run_texts] in *; [injection CP as <-; auto|].
    destruct (text_length first (u, n)) as [len|]; [|discriminate]. destruct (66 <? ofs + len)%nat; [discriminate|]. cbs CP as st1 C1.
    destruct u as [[x ix]|].
    - destruct (known x []); [discriminate|]. destruct (indices_ok [] ix) as [arr|] eqn:IX; [|discriminate]. destruct (kget x cur) eqn:KC; [discriminate|].
      cbs C1 as seen DR. cbs C1 as t SB. cbs C1 as f AS. injection C1 as <-.
      assert (seen = false) as -> by (apply indices_inv in IX as [[-> ->]|(q & -> & -> & Q)]; cbn [did_read] in DR; rewrite (NV x KC) in DR; [now injection DR|]; cb DR; now injection DR).
      assert (exists z, f = set_cell x z (k_cur st)) as (z & ->).
      { apply indices_inv in IX as [[-> ->]|(q & -> & -> & Q)]; cbn [assign] in AS; [injection AS as <-; eauto|]. cb AS. cb AS. injection AS as <-. eauto. }
      assert (OT : forall y, y <> x -> vget y (cf_vars (k_cur (with_notes [] (with_cur (set_cell x z (k_cur st)) st)))) = vget y (cf_vars (k_cur st))).
      { intros y Y. cbn [with_notes with_cur k_cur set_cell cf_vars]. now apply vget_vset_other. }
      assert (NV' : forall y, kget y (kadd x (var_kind arr TStr) cur) = None -> vget y (cf_vars (k_cur (with_notes [] (with_cur (set_cell x z (k_cur st)) st)))) = None).
      { intros y Y. destruct (str_eqb y x) eqn:E; [apply str_eqb_eq in E; subst y; rewrite kadd_get in Y by exact KC; discriminate|]. apply seq_neq in E.
        rewrite OT by exact E. apply NV. destruct (kget y cur) eqn:G; [|reflexivity]. apply (kadd_sub x (var_kind arr TStr)) in G. congruence. }
      destruct (IH false (ofs + len)%nat _ _ _ _ RG NV' KL CP) as [A B]. cbn [with_notes with_cur k_notes] in A. rewrite ?app_nil_r in A. split; [exact A|]. intros y Y. rewrite B, OT; [reflexivity| |]; intros I; apply Y; cbn [text_names flat_map fst]; [left; congruence|right; exact I].
    - injection C1 as <-. destruct (IH _ _ _ _ _ _ RG NV KL CP) as [A B]. split; [exact A|]. intros x X. apply B. exact X.
  Qed.

  Theorem text_recipe_both recipe po d po' d' left notes : compile_text recipe <> None -> names_apart recipe -> body <> [] ->
    compiled_text o recipe (body ++ ends) = Val (d', left, notes) ->
    parse_recipe en recipe po (map with_break body ++ [send]) = (Ok d, po') -> same_data d d' /\ left = List.tl (body ++ ends).
  Proof.
    intros CV (D1 & _) NE CR PR.
    assert (exists cs fs, recipe = BCons (IText cs fs) BNil) as (cs & fs & ->).
    { unfold compile_text in CV. destruct recipe as [|[| | |cs fs| | | | | | | | |] [|]]; try (now elim CV); eauto. }
    cbn [compile_text] in CV. destruct (reg_text [] start_vars true 0 fs) as [F|] eqn:RG; [|now elim CV]. clear CV.
    unfold compiled_text in CR. destruct (body ++ ends) as [|l ls] eqn:CLE; [discriminate|].
    cbs CR as mat M1. cbs CR as mf M2. cbs CR as mt M3. set (c := {| MAT := mat; MF := mf; MT := mt |}) in *. cbs CR as st1 C1. injection CR as <- <- <-.
    unfold run_text in C1. cbs C1 as [line r] RL. cbs C1 as st2 RT. injection C1 as <-. cbn [k_lines] in RL. apply read_line_taken in RL. injection RL as <- <-.
    assert (D1' : forall x, In x (text_names fs) -> ~ In x reserved).
    { intros x X. apply D1. cbn [own_names_block own_names]. apply in_or_app. now left. }
    unfold parse_recipe in PR. destruct (run_section en _ _) as [[[]|] s9] eqn:RS; [|discriminate]. injection PR as <- _.
    unfold run_section in RS. apply mbind_ok in RS as ([] & s0 & I0 & RS). injection I0 as <-. apply mbind_ok in RS as ([] & s8 & EX & RM).
    pose (s0 := set_dic (init_working []) (reset_state po (map with_break body ++ [send]) [])).
    change (exec_block en (BCons (IText cs fs) BNil) s0 = (Ok tt, s8)) in EX. assert (L0 : ps_look s0 = None) by reflexivity.
    rewrite exec_cons_eq in EX. unfold mbind at 1, should_proceed in EX. rewrite L0 in EX.
    apply mbind_ok in EX as ([] & s1 & H1 & H2). rewrite exec_nil_eq in H2. injection H2 as <-.
    change (exec en (IText cs fs)) with (guarded true (do_text en cs fs)) in H1. rewrite guarded_run in H1 by exact L0.
    unfold do_text in H1. cbn [read_env e_write e_ro] in H1. apply mbind_ok in H1 as ([t cc] & t1 & RW & H1).
    apply mbind_ok in H1 as ([] & t2 & SP & H1). apply mbind_ok in H1 as ([] & t3 & TR & H1). apply spec_same in SP. subst t2.
    unfold update_ctrl, modify in H1. injection H1 as <-.
    unfold read_with in RW. change (ps_lines s0) with PL in RW. change (ps_ofs s0) with O in RW.
    destruct (skip_blank_lines PL 0) as [p|] eqn:SK; [|discriminate RW]. destruct (read_text ro PL p) as [[[t0 c0] q]|] eqn:RD; [|discriminate RW].
    injection RW as -> -> <-.
    assert (LB : (0 < length body)%nat) by (destruct body; [now elim NE|cbn [length]; lia]).
    assert (p = O) as -> by (apply (skip_line body ends send NL _ _ SK LB)).
    destruct (line_at body ends send NL 0 LB) as (l' & E1 & E2 & PN). unfold c_lines in E1. rewrite CLE in E1. cbn [nth_error] in E1. injection E1 as <-.
    unfold read_text, get_line in RD. rewrite E2 in RD. cbn [bind] in RD. destruct (read_ctrl ro (with_break l)) as [c'|] eqn:RC; [|discriminate]. cbn [bind] in RD. injection RD as <- -> <-.
    assert (cc = c) by (eapply ctrl_line; eauto). subst cc.
    assert (W66 : (r_width ro * 6 = 66)%nat) by (destruct SR as (-> & _); reflexivity). rewrite W66 in TR.
    match type of RT with run_texts _ _ _ _ ?st = _ => set (st0 := st) in * end.
    assert (NV : forall x, kget x start_vars = None -> vget x (cf_vars (k_cur st0)) = None).
    { intros x X. change (vget x (start_cells c) = None). unfold start_vars in X. unfold start_cells. cbn [kget vget] in *.
      destruct (str_eqb x $"MAT"); [discriminate|]. destruct (str_eqb x $"MF"); [discriminate|]. destruct (str_eqb x $"MT"); [discriminate|reflexivity]. }
    destruct (texts_new l fs true 0%nat _ _ _ _ RG NV eq_refl RT) as [NW OT].
    destruct (texts_both reserved (wk_in None) F [] l PN fs true 0%nat start_vars F (advance 0 1 s0)
      st0 t3 st2)
      as ((d3 & ->) & R3 & (K1 & K2 & K3)); auto.
    { apply sub_refl. }
    { apply top_start. exact (proj1 (reg_text_adds _ _ _ _ _ _ RG)). }
    { split; [reflexivity|constructor]. }
    { rewrite NW. constructor. }
    cbn [with_lines k_lines st0] in K1. split; [|cbn [with_notes k_lines]; rewrite K1; reflexivity].
    pose proof (top_head F _ _ c R3 (proj1 (reg_text_adds _ _ _ _ _ _ RG))) as FR.
    specialize (FR ltac:(intros x X; rewrite OT; [reflexivity|]; intros Y; apply (D1' x Y); unfold reserved; cbn [In] in *; tauto)).
    match type of RM with remove_working ?x = _ => destruct (remove_both None F (k_cur st2) x s9 FR RM) as (d9 & -> & FR9) end.
    cbn [set_dic ps_dic]. eapply stored_alike; [exact FR9| | |].
    - intros x k K W. apply (proj2 (reg_text_adds _ _ _ _ _ _ RG)) in K as [K|K].
      + revert W K. revert x. refine (working_cases _ _ _ _); discriminate.
      + apply (D1' x K). unfold working, reserved in *. cbn [In] in *. tauto.
    - intros x I. rewrite (fr_work _ _ _ _ _ FR9) by exact I. revert x I. apply working_cases; reflexivity.
    - reflexivity.
  Qed.
End Top.

Lemma columns_not_zero ro body : r_width ro = 11%nat -> Forall plain_line body ->
  Forall (fun l => exists mat mf mt, carries 11 l mat mf mt /\ mt <> 0) body ->
  forall l c, In l body -> read_ctrl ro (with_break l) = Ok c -> MT c <> 0.
Proof.
  intros W NL CA l c I R. rewrite Forall_forall in NL, CA. destruct (CA l I) as (mat & mf & mt & C & NZ). destruct (NL l I) as (L & _).
  rewrite <- W in C. apply (break_carries ro l _ _ _ W L), carries_iff in C. rewrite C in R. injection R as <-. exact NZ.
Qed.
