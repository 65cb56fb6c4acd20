(** Proof of C56: the sections. *)
From Coq Require Import Ascii String ZArith Bool Lia List.
From Coq Require Import Floats.SpecFloat.
From Verif Require Import PyBase PyFloat ModelFortran ModelRecords ModelTape ModelNum ModelRecipe ModelInterp ModelParser.
From Verif Require Import SpecFields SpecLibm SpecTape SpecInterp SpecRound SpecSign SpecFile ProofPyBase ProofFields ProofTape ProofTapeWrite ProofTapeParse ProofInterp ProofInterpFrame ProofInterpCtl ProofInterpSec ProofInterpMap ProofInterpWrite ProofRound9 ProofClosed ProofSign ProofSign2 ProofFile.
Import ListNotations.
Open Scope Z_scope.

(** ** zero_as_blank matters for SEND only *)
Lemma blank_same ro wo k1 k2 depth : let e1 := write_env ro wo k1 depth in let e2 := write_env ro wo k2 depth in
  (forall i, no_send_instr i = true -> refines (exec e1 i) (exec e2 i)) /\
  (forall b, no_send b = true -> refines (exec_block e1 b) (exec_block e2 b)) /\
  (forall b, no_send_branch b = true -> refines (test_branch e1 b) (test_branch e2 b) /\ refines (exec_branch e1 b) (exec_branch e2 b)) /\
  (forall r, no_send_branches r = true -> forall el el', refines el el' -> refines (exec_branches e1 r el) (exec_branches e2 r el')).
Proof.
  intros e1 e2. apply recipe_mut; intros; try discriminate; try apply refines_refl.
  - rewrite !exec_section_eq. apply refines_guarded. destruct (negb _); [apply refines_refl|].
    do 2 (apply refines_bind; [apply refines_refl|]; intros _). apply refines_bind; [exact (H H0)|]. intros _. apply refines_refl.
  - rewrite !exec_for_eq. apply refines_guarded. change (cycle_for_loop e2) with (cycle_for_loop e1). apply refines_loop. exact (H H0).
  - cbn [no_send_instr] in H2. apply andb_prop in H2 as [H2 Q3]. apply andb_prop in H2 as [Q1 Q2].
    rewrite !exec_if_eq. apply refines_guarded. destruct (H Q1) as [Ha Hb]. apply refines_bind; [exact Ha|].
    intros [|]; [exact Hb|]. apply (H0 Q2). exact (H1 Q3).
  - cbn [no_send] in H1. apply andb_prop in H1 as [Q1 Q2]. rewrite !exec_cons_eq. apply refines_bind; [apply refines_refl|]. intros [|]; [|apply refines_refl].
    apply refines_bind; [exact (H Q1)|]. intros _. exact (H0 Q2).
  - rewrite !test_branch_eq, !exec_branch_eq. split; [|exact (H H0)]. change (if_statement e2) with (if_statement e1). now apply refines_if, H.
  - rewrite !exec_rnil_eq. assumption.
  - cbn [no_send_branches] in H1. apply andb_prop in H1 as [Q1 Q2]. rewrite !exec_rcons_eq. destruct (H Q1) as [Ha Hb]. apply refines_bind; [exact Ha|]. intros [|]; [exact Hb|]. now apply (H0 Q2).
Qed.

Lemma write_run en explain b o mf mt d s c :
  (exists v, dget (KStr $"MF") (SpecRound.numbered mf mt d) = Some v /\ val_eqZ v mf = true) ->
  (exists v, dget (KStr $"MT") (SpecRound.numbered mf mt d) = Some v /\ val_eqZ v mt = true) ->
  run_section en b (reset_state o [] (SpecRound.numbered mf mt d)) = (Ok tt, s) -> get_ctrl (ps_dic s) (ps_up s) = Ok c ->
  exists d', write_recipe en explain b o mf mt d = (Ok (ps_lines s, c), d').
Proof.
  intros (v & V1 & V2) (w & W1 & W2) R G. unfold write_recipe.
  assert (N : SpecRound.numbered mf mt d = fst (set_ctrl_default $"MT" mt (fst (set_ctrl_default $"MF" mf d)))) by (rewrite !default_put; reflexivity).
  assert (P : forall k z q, (dget (KStr k) q <> None -> snd (set_ctrl_default k z q) = true) -> snd (set_ctrl_default k z q) = true).
  { intros k z q H. unfold set_ctrl_default in *. destruct (dget (KStr k) q); [apply H; discriminate|reflexivity]. }
  destruct (set_ctrl_default $"MF" mf d) as [d1 ok1] eqn:S1. cbn [fst] in N.
  destruct (set_ctrl_default $"MT" mt d1) as [d2 ok2] eqn:S2. cbn [fst] in N. rewrite N in *.
  assert (ok1 = true) as ->.
  { unfold set_ctrl_default in S1. destruct (dget (KStr $"MF") d) as [u|] eqn:E; [|injection S1 as _ <-; reflexivity].
    injection S1 as <- <-. assert (dget (KStr $"MF") d2 = Some u).
    { unfold set_ctrl_default in S2. destruct (dget (KStr $"MT") d); injection S2 as <- _; [exact E|]. now rewrite dget_dset_other by discriminate. }
    congruence. }
  assert (ok2 = true) as ->.
  { unfold set_ctrl_default in S2. destruct (dget (KStr $"MT") d1) as [u|] eqn:E; [|injection S2 as _ <-; reflexivity].
    injection S2 as <- <-. congruence. }
  cbn [negb]. rewrite R. destruct (unwind _ _ _). rewrite G. cbn [bind]. eauto.
Qed.

Lemma run_parts en b o d s : run_section en b (reset_state o [] d) = (Ok tt, s) <->
  exists s2, exec_block en b (set_dic (init_working d) (reset_state o [] d)) = (Ok tt, s2) /\ remove_working s2 = (Ok tt, s).
Proof.
  unfold run_section. split.
  - intros R. apply mbind_ok in R as ([] & s1 & R1 & R). injection R1 as <-. apply mbind_ok in R as ([] & s2 & R2 & R). eauto.
  - intros (s2 & R2 & R). unfold mbind at 1, modify. cbn [reset_state ps_dic] in *. unfold mbind. rewrite R2. exact R.
Qed.
Lemma remove_add l s s' : remove_working s = (Ok tt, s') -> remove_working (ModelInterp.add_lines l s) = (Ok tt, ModelInterp.add_lines l s').
Proof.
  unfold remove_working. change (ps_dic (ModelInterp.add_lines l s)) with (ps_dic s). destruct (dget _ (ps_dic s)) as [v|]; [|discriminate]. destruct v; try discriminate.
  destruct (del_names _ _); [|discriminate]. intros H. injection H as <-. reflexivity.
Qed.
Lemma remove_add_inv l s s' : remove_working (ModelInterp.add_lines l s) = (Ok tt, s') -> exists s1, remove_working s = (Ok tt, s1) /\ s' = ModelInterp.add_lines l s1.
Proof.
  unfold remove_working. change (ps_dic (ModelInterp.add_lines l s)) with (ps_dic s). destruct (dget _ (ps_dic s)) as [v|]; [|discriminate]. destruct v; try discriminate.
  destruct (del_names _ _); [|discriminate]. intros H. injection H as <-. eexists. split; reflexivity.
Qed.

Section Parts.
  Variables (ro : ropts) (wo : wopts) (depth : nat) (explain : bool) (b : block) (o : popts) (mf mt : Z) (d : dict).
  Hypothesis C : clean (VDict d).
  Hypothesis O : one_mat d.
  Hypothesis N : no_send b = true.
  Let en k := write_env ro wo k depth.

  Lemma body_ctrl k s c : run_section (en k) b (reset_state o [] (SpecRound.numbered mf mt d)) = (Ok tt, s) -> get_ctrl (ps_dic s) (ps_up s) = Ok c ->
    exists s2, exec_block (en k) b (set_dic (init_working (SpecRound.numbered mf mt d)) (reset_state o [] (SpecRound.numbered mf mt d))) = (Ok tt, s2) /\
      ps_lines s2 = ps_lines s /\ the_ctrl s2 = Ok c /\ remove_working s2 = (Ok tt, s).
  Proof.
    intros R G. destruct (section_run (en k) b o (SpecRound.numbered mf mt d) s c eq_refl (numbered_clean _ _ _ C) (numbered_one _ _ _ O) R G) as ((A & B & D) & J & s2 & R2 & L & R3).
    exists s2. split; [exact R2|]. split; [exact L|]. split; [|exact R3].
    destruct (proj1 (proj2 (exec_signed c (en k) eq_refl)) b N _ _ _ R2 _ _ J) as (ab & new & J1 & _ & _).
    pose proof (fk_up _ _ _ (proj2 (exec_frame (en k)) _ _ _ _ R2)) as U3. cbn [set_dic ps_up reset_state] in U3.
    unfold the_ctrl. rewrite U3, (iv_dic _ _ _ _ J1). unfold get_ctrl, wform.
    assert (E : forall x, ctrl_dic x [] = x) by (intros x; cbn [ctrl_dic]; destruct (dget _ x); reflexivity). rewrite E. cbv zeta.
    change (KStr $"MAT") with kMAT. change (KStr $"MF") with kMF. change (KStr $"MT") with kMT.
    rewrite (dget_app_some _ _ _ _ A), (dget_app_some _ _ _ _ B), (dget_app_some _ _ _ _ D). cbn. destruct c; reflexivity.
  Qed.

  Lemma send_added k lines c e send : write_recipe (en k) explain b o mf mt d = (Ok (lines, c), e) -> write_send wo k c = Ok [send] ->
    exists e', write_recipe (en k) explain (then_send b) o mf mt d = (Ok (lines ++ [send], c), e').
  Proof.
    intros H S. apply write_inv in H as (s & R & <- & G & V1 & V2). destruct (body_ctrl _ _ _ R G) as (s2 & R2 & L & T & R3).
    destruct (write_run (en k) explain (then_send b) o mf mt d (ModelInterp.add_lines [send] s) c V1 V2) as (e' & E); [|exact G|].
    - apply run_parts. exists (ModelInterp.add_lines [send] s2). split; [|now apply remove_add].
      rewrite then_send_eq by reflexivity. unfold mbind. rewrite R2. unfold do_send. change (e_write (en k)) with true. cbv iota. unfold write_with. rewrite T. cbn [bind].
      change (e_wo (en k)) with wo. change (e_blank (en k)) with k. rewrite S. reflexivity.
    - exists e'. rewrite E. reflexivity.
  Qed.
  Lemma send_removed k lines c e : write_recipe (en k) explain (then_send b) o mf mt d = (Ok (lines, c), e) ->
    exists body send e', lines = body ++ [send] /\ write_send wo k c = Ok [send] /\ write_recipe (en k) explain b o mf mt d = (Ok (body, c), e').
  Proof.
    intros H. destruct (section_signed (en k) explain b o mf mt d lines c e eq_refl C O N H) as (body & send & -> & F & S). change (e_wo (en k)) with wo in S. change (e_blank (en k)) with k in S.
    exists body, send. apply write_inv in H as (s & R & L & G & V1 & V2). apply run_parts in R as (s2 & R2 & R3).
    rewrite then_send_eq in R2 by reflexivity. apply mbind_ok in R2 as ([] & s1 & R1 & R2). unfold do_send in R2. change (e_write (en k)) with true in R2. cbv iota in R2. change (e_wo (en k)) with wo in R2. change (e_blank (en k)) with k in R2.
    unfold write_with in R2. destruct (the_ctrl s1) as [c'|] eqn:T; cbn [bind] in R2; [|discriminate].
    destruct (write_send wo k c') as [ls|] eqn:S'; [|discriminate]. injection R2 as <-.
    destruct (remove_add_inv _ _ _ R3) as (s3 & R4 & ->).
    destruct (write_run (en k) explain b o mf mt d s3 c V1 V2) as (e' & E); [apply run_parts; eauto|exact G|].
    exists e'. split; [reflexivity|]. split; [exact S|]. rewrite E.
    assert (X : exists l', ls = [l']) by (unfold write_send, write_end in S'; destruct (zerostr_fields _ _); [|discriminate]; cbn [bind] in S'; injection S' as <-; eauto).
    destruct X as (l' & ->). cbn [ModelInterp.add_lines ps_lines] in L. apply app_inj_tail in L as [<- _]. reflexivity.
  Qed.
  Lemma blank_changed k k' lines c e : write_recipe (en k) explain b o mf mt d = (Ok (lines, c), e) ->
    exists e', write_recipe (en k') explain b o mf mt d = (Ok (lines, c), e').
  Proof.
    intros H. apply write_inv in H as (s & R & <- & G & V1 & V2). apply run_parts in R as (s2 & R2 & R3).
    apply write_run; auto. apply run_parts. exists s2. split; [|exact R3].
    exact (proj1 (proj2 (blank_same ro wo k k' depth)) b N _ _ _ R2 I).
  Qed.
End Parts.

Lemma parse_no_send ro wo depth b o lines r o' : parse_recipe (read_env ro wo depth) (then_send b) o lines = (Ok r, o') ->
  parse_recipe (read_env ro wo depth) b o lines = (Ok r, o').
Proof.
  unfold parse_recipe. intros H. destruct (run_section _ (then_send b) (reset_state o lines [])) as [[[]|] s] eqn:R; [|discriminate]. injection H as <- <-.
  unfold run_section in *.
  apply mbind_ok in R as ([] & s1 & R1 & R). injection R1 as <-. apply mbind_ok in R as ([] & s2 & R2 & R).
  rewrite then_send_eq in R2 by reflexivity. apply mbind_ok in R2 as ([] & s1 & R1 & R2).
  unfold mbind at 1, modify. cbn [reset_state ps_dic] in *. unfold mbind. rewrite R1.
  assert (Q : ps_dic s2 = ps_dic s1 /\ ps_opts s2 = ps_opts s1).
  { unfold do_send in R2. cbn [e_write read_env] in R2. destruct (skip_blank_lines _ _); [|discriminate].
    destruct (read_send _ _ _) as [[[? ?] ?]|]; [|discriminate]. injection R2 as <-. split; reflexivity. }
  destruct Q as [Q1 Q2]. unfold remove_working in *. rewrite Q1 in R. destruct (dget _ (ps_dic s1)) as [v|]; [|discriminate]. destruct v; try discriminate.
  destruct (del_names _ _); [|discriminate]. injection R as <-. cbn [set_dic ps_dic ps_opts]. rewrite Q2. reflexivity.
Qed.

(** ** One section *)
Lemma no_send_closed : (forall i, no_send_instr (closed_instr i) = no_send_instr i) /\ (forall b, no_send (closed b) = no_send b) /\
  (forall b, no_send_branch (closed_branch b) = no_send_branch b) /\ (forall r, no_send_branches (closed_branches r) = no_send_branches r).
Proof.
  apply recipe_mut; intros; cbn [closed_instr closed closed_branch closed_branches no_send_instr no_send no_send_branch no_send_branches]; try reflexivity; try assumption; try congruence.
  rewrite H, H0. f_equal. destruct els as [|i r]; [|exact H1]. cbn [closed closed_else]. destruct (_ || _); reflexivity.
Qed.

Lemma signed_carries w c l : ctrl_fits c -> length l = (6 * w + 9)%nat -> signed (MAT c) (MF c) (MT c) l -> carries w l (MAT c) (MF c) (MT c).
Proof.
  intros Cf L (t & E). assert (Lc : length (write_ctrl c) = 9%nat) by now apply length_write_ctrl.
  assert (Lt : length t = (6 * w)%nat). { rewrite E in L. change (ctrl_text (MAT c) (MF c) (MT c)) with (write_ctrl c) in L. rewrite app_length, Lc in L. lia. }
  apply (carries_iff (ctrl_ropts w)). rewrite E. change (ctrl_text (MAT c) (MF c) (MT c)) with (write_ctrl c).
  rewrite <- (app_nil_r (write_ctrl c)). rewrite (read_ctrl_write (ctrl_ropts w) t [] c); [destruct c; reflexivity|exact Lt|exact Cf].
Qed.

Lemma columns_suffix w (ls ls' : list str) : Forall (fun l => length l = (6 * w + 9)%nat) ls -> Forall2 (same_columns w) ls ls' ->
  at_lines ls ls' 0 /\ length ls' = length ls.
Proof.
  intros F S. split; [|induction S; cbn; [reflexivity|f_equal; apply IHS; now inversion F]]. intros i l H.
  revert i H. induction S as [|a b ls ls' E S IH]; intros [|i] H; cbn [nth_error] in H; try discriminate.
  - injection H as ->. inversion F as [|? ? L _]; subst. exists (skipn (6 * w + 9) b). cbn [nth_error Nat.add]. unfold same_columns in E.
    rewrite (firstn_all2 l) in E by lia. rewrite <- E at 1. now rewrite firstn_skipn.
  - inversion F; subst. exact (IH H3 i H).
Qed.
Lemma at_lines_more ls ls' l : at_lines ls ls' 0 -> length ls' = length ls -> at_lines (ls ++ [l]) (ls' ++ [l]) 0.
Proof.
  intros A L i x H. cbn [Nat.add]. destruct (Nat.lt_ge_cases i (length ls)) as [Lt|Ge].
  - rewrite nth_error_app1 in H by exact Lt. rewrite nth_error_app1 by (unfold str in *; lia). exact (A i x H).
  - rewrite nth_error_app2 in H by exact Ge. rewrite nth_error_app2 by (unfold str in *; lia). rewrite L.
    destruct (i - length ls)%nat as [|j]; cbn [nth_error] in *; [injection H as <-; exists []; now rewrite app_nil_r|destruct j; discriminate].
Qed.

Lemma closed_run0 en b : refines (run_section en (closed b)) (run_section en b).
Proof.
  unfold run_section. apply refines_bind; [apply refines_refl|]. intros _. apply refines_bind; [|intros _; apply refines_refl].
  apply (proj1 (proj2 (closed_refines en))).
Qed.
Lemma closed_write0 en explain b o mf mt d x d' :
  write_recipe en explain (closed b) o mf mt d = (Ok x, d') -> write_recipe en explain b o mf mt d = (Ok x, d').
Proof.
  unfold write_recipe. destruct (set_ctrl_default _ mf d) as [d1 ok1]. destruct (negb ok1); [discriminate|].
  destruct (set_ctrl_default _ mt d1) as [d2 ok2]. destruct (negb ok2); [discriminate|].
  destruct (run_section en (closed b) _) as [r s] eqn:R. destruct r as [[]|e].
  - rewrite (closed_run0 _ _ _ _ _ R I). auto.
  - destruct (unwind _ _ _). discriminate.
Qed.
Lemma ended_write en explain b b' o mf mt d x d' : b' = b \/ b' = closed b ->
  write_recipe en explain (ended mf b') o mf mt d = (Ok x, d') -> write_recipe en explain (ended mf b) o mf mt d = (Ok x, d').
Proof.
  intros [->| ->] H; [exact H|]. unfold ended in *. destruct (mf =? 0); [now apply closed_write0|now apply closed_write].
Qed.

Lemma last_number ro wo body c : r_width ro = w_width wo -> body <> [] ->
  Forall (fun l => carries (w_width wo) l (MAT c) (MF c) (MT c) /\ (6 * w_width wo + 9 <= length l)%nat) body ->
  exists num, add_linenumbers_to_section wo body = Ok num /\ read_ctrl ro (last num []) = Ok c.
Proof.
  intros Rw Ne F. destruct body as [|l0 r]; [contradiction|].
  assert (C0 : carries (w_width wo) l0 (MAT c) (MF c) (MT c)) by (inversion F; tauto).
  apply (ctrl_ropts_carries wo l0 c) in C0.
  destruct (add_linenumbers_ok wo l0 r _ C0) as (out & E). exists out. split; [exact E|].
  destruct (add_linenumbers_spec wo _ _ E) as (l0' & c' & _ & _ & Nu).
  pose proof (numbered_carries _ _ _ _ _ _ _ Nu F) as Fo. apply (ro_carries ro wo Rw).
  destruct Nu as [Ln _]. destruct (exists_last (l := out)) as (pre & z & ->); [intros ->; discriminate|].
  rewrite last_last. apply Forall_app in Fo as [_ Fo]. now inversion Fo.
Qed.

Section One.
  Variables (p : parser) (blank nofail : bool) (o : popts).
  Hypothesis W : field_width (p_wo p).
  Hypothesis Rw : r_width (p_ro p) = w_width (p_wo p).

  Definition bo (mf mt : Z) (x : section dict) : list str :=
    match x with
    | Raw ls => ls
    | Parsed s => match write_one p blank o mf mt s with
                  | Ok (lines, _) => if mf =? 0 then lines else removelast lines
                  | Err _ => []
                  end
    end.

  Lemma restorable_section mat mf mt G s : restorable p blank o mat mf mt G s ->
    let c := {| MAT := mat; MF := mf; MT := mt |} in
    let body := bo mf mt (Parsed s) in
    body <> [] /\ Forall (fun l => carries (w_width (p_wo p)) l mat mf mt /\ length l = (6 * w_width (p_wo p) + 9)%nat) body /\
    write_section (write_one p blank o) (p_ro p) (p_wo p) blank mf mt (Parsed s) = write_section (write_one p blank o) (p_ro p) (p_wo p) blank mf mt (Raw body) /\
    forall ls o', o_all o' = false -> o_fuzzy o' = false -> Forall2 (same_columns (w_width (p_wo p))) body ls ->
      exists r, parse_section (parse_one p) (has_recipe (p_recipes p)) (p_ro p) (p_wo p) nofail None None o' mf mt ls = (Ok (Parsed r), o') /\
        comes_back p blank o mf mt s r.
  Proof.
    intros (b & b' & body0 & send & c0 & e & FR & Hb & NS & GG & RB & CF & CL & ON & HM & CT & HW & NE & LN & LS).
    assert (NS' : no_send b' = true) by (destruct Hb as [->| ->]; [exact NS|rewrite (proj1 (proj2 no_send_closed)); exact NS]).
    pose proof (write_ctrl_numbers (write_env (p_ro p) (p_wo p) blank (p_depth p)) _ _ _ _ _ _ _ _ _ eq_refl CL ON HW) as (C1 & C2 & C3).
    change (dget kMAT s) with (dget (KStr $"MAT") s) in C3. rewrite HM in C3. injection C3 as C3.
    assert (c0 = {| MAT := mat; MF := mf; MT := mt |}) as -> by (destruct c0; cbn in *; congruence). clear C1 C2 C3.
    set (c := {| MAT := mat; MF := mf; MT := mt |}) in *. cbv zeta.
    (* the body alone *)
    assert (HB : (exists e', write_recipe (write_env (p_ro p) (p_wo p) blank (p_depth p)) (p_explain p) b' o mf mt s = (Ok (body0, c), e')) /\
      (if mf =? 0 then send = [] else write_send (p_wo p) blank c = Ok send)).
    { unfold ended in HW. destruct (mf =? 0).
      - destruct send; [|discriminate]. rewrite app_nil_r in HW. eauto.
      - destruct send as [|x [|]]; try discriminate.
        destruct (send_removed _ _ _ _ b' o mf mt s CL ON NS' blank _ _ _ HW) as (bd & sd & e' & E & S & E').
        apply app_inj_tail in E as [<- <-]. eauto. }
    destruct HB as ((e' & HB) & HS).
    pose proof (body_signed (write_env (p_ro p) (p_wo p) blank (p_depth p)) _ _ _ _ _ _ _ _ _ eq_refl CL ON NS' HB) as SG.
    assert (WO : write_one p blank o mf mt s = Ok (body0 ++ send, c)).
    { unfold write_one. rewrite FR. rewrite (ended_write _ _ _ _ _ _ _ _ _ _ Hb HW). reflexivity. }
    assert (BO : bo mf mt (Parsed s) = body0).
    { unfold bo. rewrite WO. destruct (mf =? 0); [rewrite HS; apply app_nil_r|].
      destruct send as [|x [|]]; try discriminate. apply removelast_last. }
    rewrite BO. clear BO. split; [exact NE|].
    assert (CA : Forall (fun l => carries (w_width (p_wo p)) l mat mf mt /\ length l = (6 * w_width (p_wo p) + 9)%nat) body0).
    { rewrite Forall_forall in *. intros l Il. split; [|now apply LN]. apply (signed_carries _ c); auto. }
    split; [exact CA|]. split.
    - assert (CA' : Forall (fun l => carries (w_width (p_wo p)) l (MAT c) (MF c) (MT c) /\ (6 * w_width (p_wo p) + 9 <= length l)%nat) body0).
      { eapply Forall_impl; [|exact CA]. cbn. intros l [X Y]. split; [exact X|lia]. }
      destruct (last_number (p_ro p) (p_wo p) body0 c Rw NE CA') as (num & E1 & E2).
      unfold write_section. rewrite WO. cbn [bind]. destruct (mf =? 0) eqn:M.
      + rewrite HS, app_nil_r, E1. cbn [bind]. now rewrite E2.
      + destruct send as [|x [|]]; try discriminate. rewrite removelast_last, last_last, E1. cbn [bind]. rewrite E2. cbn [bind]. now rewrite HS.
    - intros ls o' OA OF SC.
      destruct (write_end_line (p_ro p) (p_wo p) false {| MAT := mat; MF := mf; MT := 0 |} $"99999" W Rw) as (snd0 & ES & EL).
      { destruct CT as (X1 & X2 & X3). repeat split; cbn in *; lia. }
      { reflexivity. } { reflexivity. }
      assert (ES' : write_send (p_wo p) false c = Ok [snd0]) by exact ES.
      destruct (blank_changed _ _ _ _ b' o mf mt s NS' _ false _ _ _ HB) as (e1 & HB1).
      destruct (send_added _ _ _ _ b' o mf mt s CL ON NS' false _ _ _ snd0 HB1 ES') as (e2 & HB2).
      destruct (columns_suffix _ _ _ LN SC) as [AL LL].
      assert (IC : in_columns (p_wo p) (body0 ++ [snd0])).
      { exists body0, snd0. split; [reflexivity|]. split; [exact LN|]. destruct EL as (_ & L2 & _). exact L2. }
      assert (B53 : Z.abs mf <= 2 ^ 53 /\ Z.abs mt <= 2 ^ 53).
      { destruct CT as (_ & X2 & X3). unfold c in X2, X3. cbn [MF MT] in X2, X3. replace (2 ^ 53) with 9007199254740992 by reflexivity. lia. }
      destruct (round_trip (p_wo p) (p_ro p) false (p_depth p) G b' (p_explain p) o mf mt s _ _ _ W Rw GG RB CF (proj1 B53) (proj2 B53) HB2 IC o' (ls ++ [snd0]) OA OF (at_lines_more _ _ _ AL LL))
        as (r & PR & PP & TH).
      exists r. split.
      + assert (PO : parse_one p o' mf mt (ls ++ [snd0]) = (Ok r, o')).
        { unfold parse_one. rewrite FR. assert (PR' : parse_recipe (read_env (p_ro p) (p_wo p) (p_depth p)) (then_send b) o' (ls ++ [snd0]) = (Ok r, o')).
          { destruct Hb as [->| ->]; [exact PR|exact (closed_parse _ _ _ _ _ _ PR)]. }
          unfold ended. destruct (mf =? 0); [exact (parse_no_send _ _ _ _ _ _ _ _ PR')|exact PR']. }
        unfold parse_section. destruct SC as [|l0 l0' bd bd' S1 S2]; [contradiction|]. unfold get_line at 1. cbn [nth_error bind].
        assert (RC : read_ctrl (p_ro p) l0' = Ok c).
        { apply (ro_carries (p_ro p) (p_wo p) Rw). inversion CA as [|? ? [X Y] _]; subst. destruct (AL 0%nat l0 eq_refl) as (suf & Hs). cbn in Hs. injection Hs as ->.
          assert (Z9 : forall (a z : str), length a = (6 * w_width (p_wo p) + 9)%nat -> carries (w_width (p_wo p)) a mat mf mt -> carries (w_width (p_wo p)) (a ++ z) mat mf mt).
          { intros a z La Ca. rewrite <- (firstn_all2 (n := (6 * w_width (p_wo p) + 9)%nat) a) by lia. apply carries_cut; [lia|exact Ca]. }
          apply Z9; assumption. }
        rewrite RC. unfold has_recipe. rewrite FR. cbn [andb should_skip_section negb]. rewrite ES', PO. reflexivity.
      + exists G. split; [exact PP|]. intros t Ct Ot Tt. destruct (TH t Tt) as (e3 & HT).
        destruct (send_removed _ _ _ _ b' o mf mt t Ct Ot NS' false _ _ _ HT) as (bd & sd & e4 & E & _ & HT2).
        apply app_inj_tail in E as [<- <-].
        destruct (blank_changed _ _ _ _ b' o mf mt t NS' _ blank _ _ _ HT2) as (e5 & HT3).
        rewrite WO. unfold write_one. rewrite FR.
        assert (HT4 : exists e6, write_recipe (write_env (p_ro p) (p_wo p) blank (p_depth p)) (p_explain p) (ended mf b') o mf mt t = (Ok (body0 ++ send, c), e6)).
        { unfold ended. destruct (mf =? 0); [rewrite HS, app_nil_r; eauto|]. destruct send as [|x [|]]; try discriminate.
          exact (send_added _ _ _ _ b' o mf mt t Ct Ot NS' blank _ _ _ x HT3 HS). }
        destruct HT4 as (e6 & HT4). rewrite (ended_write _ _ _ _ _ _ _ _ _ _ Hb HT4). reflexivity.
  Qed.
End One.

(** ** The file *)
Section Whole.
  Variables (p : parser) (blank nofail : bool) (o : popts) (d : mfdic (section dict)).
  Hypothesis W : field_width (p_wo p).
  Hypothesis Rw : r_width (p_ro p) = w_width (p_wo p).
  Hypothesis St : strict (p_ro p).
  Hypothesis WF : whole_file p blank o d.

  Lemma file_verbatim : exists mat, verbatim (w_width (p_wo p)) mat (bodies (bo p blank o) d).
  Proof.
    destruct WF as (Dd & Sub & (h & hmat & G & Hh & Rh & l & c & Wh) & M0 & (mf1 & mt1 & x1 & N1 & H1) & mat & Nm & Se).
    exists mat. split; [now apply bodies_is_dict2|]. split; [exact Nm|]. split.
    { intros mf sub I. unfold bodies in I. apply in_map_iff in I as ([mf' sub'] & E & I). injection E as <- <-. destruct (Sub _ _ I) as [A B].
      split; [|exact B]. destruct sub'; [contradiction|discriminate]. }
    split.
    { destruct (restorable_section p blank nofail o W Rw _ _ _ _ _ Rh) as (NE & CA & _).
      assert (BO : bo p blank o 0 0 (Parsed h) = [l]) by (unfold bo; rewrite Wh; reflexivity). rewrite BO in *.
      inversion CA as [|? ? [X Y] _]; subst. exists l, hmat. split; [apply bodies_holds; exists (Parsed h); auto|]. split; [exact X|]. split; [rewrite Y; lia|].
      intros B. rewrite firstn_all2 in B by lia.
      destruct Rh as (b & b' & body0 & send & c0 & e & FR & Hb & NS & GG & RB & CF & CL & ON & HM & CT & HW & NE' & LN & LS).
      assert (NS' : no_send b' = true) by (destruct Hb as [->| ->]; [exact NS|rewrite (proj1 (proj2 no_send_closed)); exact NS]).
      cbn [Z.eqb] in LS. destruct send; [|discriminate]. rewrite app_nil_r in HW. change (ended 0 b') with b' in HW.
      pose proof (body_signed (write_env (p_ro p) (p_wo p) blank (p_depth p)) _ _ _ _ _ _ _ _ _ eq_refl CL ON NS' HW) as SG.
      unfold write_one in Wh. rewrite FR in Wh. rewrite (ended_write _ _ _ _ _ _ _ _ _ _ Hb HW) in Wh. cbn [fst] in Wh. injection Wh as -> <-.
      inversion SG as [|? ? (t & E) _]; subst. apply (write_ctrl_not_blank c0 t []). rewrite app_nil_r. exact B. }
    split. { intros mt ls H. apply bodies_holds in H as (x & Hx & _). exact (M0 _ _ Hx). }
    split. { exists mf1, mt1, (bo p blank o mf1 mt1 x1). split; [exact N1|]. apply bodies_holds. eauto. }
    intros mf mt ls Nz H. apply bodies_holds in H as (x & Hx & ->). destruct (Se mf mt x Nz Hx) as (Nt & K). split; [exact Nt|]. destruct x as [ls|s].
    - destruct K as (_ & A & B). auto.
    - destruct K as (G' & R). destruct (restorable_section p blank nofail o W Rw _ _ _ _ _ R) as (NE & CA & _). split; [exact NE|].
      eapply Forall_impl; [|exact CA]. cbn. intros a [X Y]. split; [exact X|lia].
  Qed.

  Lemma file_alike mf mt x : holds d mf mt x ->
    write_section (write_one p blank o) (p_ro p) (p_wo p) blank mf mt x = write_section (write_one p blank o) (p_ro p) (p_wo p) blank mf mt (Raw (bo p blank o mf mt x)).
  Proof.
    destruct WF as (Dd & Sub & (h & hmat & G & Hh & Rh & l & c & Wh) & M0 & _ & mat & Nm & Se). intros Hx. destruct x as [ls|s]; [reflexivity|].
    destruct (Z.eq_dec mf 0) as [->|Nz].
    - assert (mt = 0) as -> by (eapply M0; exact Hx). pose proof (holds_fun _ _ _ _ _ Dd Hx Hh) as E. injection E as ->.
      apply (restorable_section p blank nofail o W Rw _ _ _ _ _ Rh).
    - destruct (Se mf mt _ Nz Hx) as (_ & G' & R). apply (restorable_section p blank nofail o W Rw _ _ _ _ _ R).
  Qed.

  Lemma file_sections o' : o_all o' = false -> o_fuzzy o' = false -> forall mf mt x ls, holds d mf mt x ->
    Forall2 (same_columns (w_width (p_wo p))) (bo p blank o mf mt x) ls ->
    exists y, parse_section (parse_one p) (has_recipe (p_recipes p)) (p_ro p) (p_wo p) nofail None None o' mf mt ls = (Ok y, o') /\ section_back p blank o mf mt x y.
  Proof.
    destruct WF as (Dd & Sub & (h & hmat & G & Hh & Rh & l & c & Wh) & M0 & _ & mat & Nm & Se). intros OA OF mf mt x ls Hx SC.
    assert (X : forall G' mat' s, x = Parsed s -> restorable p blank o mat' mf mt G' s ->
      exists y, parse_section (parse_one p) (has_recipe (p_recipes p)) (p_ro p) (p_wo p) nofail None None o' mf mt ls = (Ok y, o') /\ section_back p blank o mf mt x y).
    { intros G' mat' s -> R. destruct (restorable_section p blank nofail o W Rw _ _ _ _ _ R) as (_ & _ & _ & K).
      destruct (K ls o' OA OF SC) as (r & E & B). exists (Parsed r). split; [exact E|]. exists r. auto. }
    destruct (Z.eq_dec mf 0) as [->|Nz].
    - assert (mt = 0) as -> by (eapply M0; exact Hx). pose proof (holds_fun _ _ _ _ _ Dd Hx Hh) as E. exact (X _ _ _ E Rh).
    - destruct (Se mf mt x Nz Hx) as (_ & K). destruct x as [l0|s]; [|destruct K as (G' & R); exact (X _ _ _ eq_refl R)].
      destruct K as (NR & NE & FA). cbn [bo] in SC. exists (Raw ls). split; [|exists ls; auto].
      unfold parse_section. destruct SC as [|a a' r r' S1 S2]; [contradiction|]. unfold get_line. cbn [nth_error bind].
      inversion FA as [|? ? [Ca La] _]; subst.
      assert (RC : read_ctrl (p_ro p) a' = Ok {| MAT := mat; MF := mf; MT := mt |}).
      { apply (ro_carries (p_ro p) (p_wo p) Rw). unfold same_columns in S1. rewrite <- (firstn_skipn (6 * w_width (p_wo p) + 9) a'), S1. now apply carries_cut. }
      rewrite RC. unfold has_recipe. rewrite NR. reflexivity.
  Qed.

  Theorem whole_file_back : exists tape, write p blank None None o d = Ok tape /\
    forall o', o_all o' = false -> o_fuzzy o' = false -> exists d',
      parse p nofail None None o' tape = (Ok d', o') /\ is_dict2 d' /\
      (forall mf mt x, holds d mf mt x -> exists y, holds d' mf mt y /\ section_back p blank o mf mt x y) /\
      (forall mf mt y, holds d' mf mt y -> exists x, holds d mf mt x /\ section_back p blank o mf mt x y) /\
      forall d2, sectionwise (thinned_section d') d d2 -> write p blank None None o d2 = Ok tape.
  Proof.
    destruct file_verbatim as (mat & V).
    destruct (file_written (write_one p blank o) (p_ro p) (p_wo p) blank W Rw (bo p blank o) d mat file_alike V) as (tape & E).
    exists tape. split; [exact E|]. intros o' OA OF.
    destruct (file_back (write_one p blank o) (parse_one p) (has_recipe (p_recipes p)) (p_ro p) (p_wo p) blank nofail W Rw St (bo p blank o) (section_back p blank o) d mat file_alike V tape o' E (file_sections o' OA OF))
      as (d' & E2 & D2 & F1 & F2).
    exists d'. split; [exact E2|]. split; [exact D2|]. split; [exact F1|]. split; [exact F2|].
    intros d2 FR. unfold write. rewrite <- (alike_tape (write_one p blank o) (p_ro p) (p_wo p) blank d d2); [exact E|].
    assert (KS : forall mf mt x y, holds d mf mt x -> thinned_section d' mf mt x y ->
      write_section (write_one p blank o) (p_ro p) (p_wo p) blank mf mt x = write_section (write_one p blank o) (p_ro p) (p_wo p) blank mf mt y).
    { intros mf mt x y Hx [->|(s & e & r & -> & -> & Hr & Ce & Oe & Te)]; [reflexivity|].
      destruct (F1 _ _ _ Hx) as (y & Hy & r' & -> & G & _ & TH). pose proof (holds_fun _ _ _ _ _ D2 Hr Hy) as Q. injection Q as <-.
      unfold write_section. rewrite (TH e Ce Oe Te). reflexivity. }
    assert (HD : forall mf sub, In (mf, sub) d -> forall mt x, In (mt, x) sub -> holds d mf mt x) by (intros mf sub I mt x J; exists sub; auto).
    clear -FR KS HD. unfold sectionwise in FR.
    assert (KS' : forall mf sub mt x y, In (mf, sub) d -> In (mt, x) sub -> thinned_section d' mf mt x y ->
      write_section (write_one p blank o) (p_ro p) (p_wo p) blank mf mt x = write_section (write_one p blank o) (p_ro p) (p_wo p) blank mf mt y).
    { intros mf sub mt x y I J. apply KS. exists sub. auto. }
    clear KS HD. induction FR as [|[mf sub] [mf' sub'] d d2 [E F] FR IH]; [constructor|]. cbn [fst snd] in *. subst mf'. constructor.
    - split; [reflexivity|]. cbn [fst snd].
      assert (KI : forall mt x y, In (mt, x) sub -> thinned_section d' mf mt x y ->
        write_section (write_one p blank o) (p_ro p) (p_wo p) blank mf mt x = write_section (write_one p blank o) (p_ro p) (p_wo p) blank mf mt y)
        by (intros mt x y; apply (KS' mf sub); now left).
      clear -F KI. induction F as [|[mt x] [mt' y] a b [E H] F IH]; [constructor|]. cbn [fst snd] in *. subst mt'. constructor.
      + split; [reflexivity|]. apply KI; [now left|exact H].
      + apply IH. intros; eapply KI; eauto. now right.
    - apply IH. intros; eapply KS'; eauto. now right.
  Qed.
End Whole.
