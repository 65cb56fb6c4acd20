(** The generated C++ functions for writing: loops, conditions, sections and blocks. *)
From Coq Require Import Ascii String ZArith Bool Lia List.
From Coq Require Import Floats.SpecFloat.
From Verif Require Import PyBase ProofPyBase PyFloat ProofFloat ModelFortran ModelRecords ModelTape SpecFields ProofFields SpecFloat SpecTape ProofRecords ProofCppWrite ProofCppTab.
From Verif Require Import ModelNum ModelRecipe ModelInterp SpecInterp
  ModelCpp ModelCppTab ModelCppArr SpecCpp SpecCppTab SpecCppRead ModelCppGen SpecCppGen ModelCppWrite SpecCppWrite.
From Verif Require Import ProofInterp ProofInterpSec ProofInterpFrame ProofInterpWrite ProofInterpMap.
From Verif Require Import ProofCppArr ProofCppGenRead ProofCppGenMap ProofCppGenEval ProofCppGenReg ProofCppWriteEval ProofCppWriteBase ProofCppWriteRec.
Import ListNotations.
Open Scope Z_scope.

Lemma wrel_init c up lv s k w : wrel c up lv s k -> ps_dic s = cf_dict (k_cur k) ++ w -> (w = [] \/ w = [w_up]) ->
  wrel c up lv (set_dic (init_working (ps_dic s)) s) k.
Proof.
  intros R D W. destruct (wr_cur _ _ _ _ _ R) as [CL _]. assert (IW := init_app _ _ CL W). rewrite <- D in IW. 
  split; cbn [set_dic ps_dic ps_up ps_loops ps_look]; try apply R.
  - split; [exact CL|]. exists (w ++ [w_abb; w_sta]). split; [exact IW|]. apply Forall_app. split; [destruct W as [-> | ->]; repeat constructor; apply wk1|].
    constructor; [apply wk2|]. constructor; [apply wk3|constructor].
  - rewrite <- (wr_ctrl _ _ _ _ _ R). apply ctrl_same3; [eapply wups_names; apply (wr_up _ _ _ _ _ R)|].
    intros x I. rewrite IW, D, app_assoc, dget_app. destruct (dget _ (_ ++ w)); [reflexivity|]. destruct I as [<-|[<-|[<-|[]]]]; reflexivity.
Qed.

Section Run.
  Variables (o : cwopts) (preserve : bool) (wo : wopts) (whole : bool) (c : ctrl) (en : env).
  Hypothesis EW : e_write en = true.
  Hypothesis EO : e_wo en = wo.
  Hypothesis SO : same_options o wo.
  Hypothesis CF : ctrl_fits c.
  Notation regular := (Forall (regular_wnote o preserve wo whole)).
  Notation wstep := (wstep o wo whole c).

  Definition istep (pb : M unit) (cb : wstate -> cpp wstate) (up : list vars) (lv : list str) : Prop :=
    forall s st s' st', wrel c up lv s (w_c st) -> 0 <= w_num st -> pb s = (Ok tt, s') -> cb st = Val st' -> regular (w_notes st') -> wstep s s' st st'.
  Lemma wstep_num s s' st st' : wstep s s' st st' -> 0 <= w_num st -> 0 <= w_num st'.
  Proof. intros (bs & bs' & _ & _ & _ & _ & _ & ->) H. lia. Qed.
  Lemma guarded_istep m b cb up lv : istep m cb up lv -> istep (guarded b m) cb up lv.
  Proof. intros H s st s' st' R NN PY CP RN. unfold guarded, mbind, should_proceed in PY. rewrite (wr_look _ _ _ _ _ R) in PY. eauto. Qed.

  (** ** Loops *)

  Lemma iturns_both v (pb : M unit) stop cb b up lv : (forall p q, cb p = Val q -> wgrows p q) -> istep pb cb up (v :: lv) ->
    forall is_ L s st s' st', Forall (fun i => 0 <= i) is_ -> ldel v (ps_loops s) = L -> wrel c up lv (set_loops L s) (w_c st) -> 0 <= w_num st ->
      iterate v is_ pb s = (Ok tt, s') -> turns v stop w_loops (fun st => k_loops (w_c st)) cb b is_ st = Val st' -> regular (w_notes st') ->
      wstep (set_loops L s) (set_loops L s') st st' /\ ldel v (ps_loops s') = L.
  Proof.
    intros GR BODY. induction is_ as [|i r IH]; intros L s st s' st' PI LD R NN IT TU RN; cbn [iterate turns] in IT, TU.
    - injection IT as <-. cbs TU as b' EB. destruct (b' =? b); [|discriminate]. injection TU as <-. split; [apply wstep_refl|exact LD].
    - apply mbind_ok in IT as ([] & s1 & H1 & IT). injection H1 as <-. apply mbind_ok in IT as ([] & s2 & H2 & IT).
      cbs TU as b' EB. destruct (b' =? b); [|discriminate]. cbs TU as st2 E2. inversion PI as [|? ? P0 PR]; subst.
      pose proof (rel_in c up lv v i _ _ P0 R) as R1. cbn [set_loops ps_loops] in R1.
      assert (RN2 : regular (w_notes st2)).
      { eapply wgrows_forall; [|exact RN]. apply (wturns_grows (fun s => s)) in TU; [|reflexivity|exact GR]. eapply wgrows_trans; [|exact TU]. now apply wgrows_same. }
      pose proof (BODY (set_loops ((v, i) :: ldel v (ps_loops s)) s) (w_loops ((v, i) :: k_loops (w_c st)) st) s2 st2 R1 NN H2 E2 RN2) as (bs & bs' & -> & FA & LB & K & OO & NU).
      apply keep_out in K.
      assert (LD2 : ldel v (ps_loops (add_lines (map (ctl c) bs) (set_loops ((v, i) :: ldel v (ps_loops s)) s))) = ldel v (ps_loops s)) by (cbn [add_lines set_loops ps_loops]; apply ldel_head).
      assert (W1 : wstep (set_loops (ldel v (ps_loops s)) s) (set_loops (ldel v (ps_loops s)) (add_lines (map (ctl c) bs) (set_loops ((v, i) :: ldel v (ps_loops s)) s))) st (w_loops (List.tl (k_loops (w_c st2))) st2)).
      { exists bs, bs'. split; [reflexivity|]. split; [exact FA|]. split; [exact LB|]. split; [exact K|]. split; [exact OO|exact NU]. }
      destruct (IH _ _ _ _ _ PR LD2 (wstep_rel _ _ _ _ _ _ _ _ _ _ W1 R) (wstep_num _ _ _ _ W1 NN) IT TU RN) as (Q1 & Q2).
      split; [exact (wstep_trans _ _ _ _ _ _ _ _ _ _ W1 Q1)|exact Q2].
  Qed.
  Lemma ifor_both v a b (pb : M unit) cb up lv cur : (forall p q, cb p = Val q -> wgrows p q) -> istep pb cb up (v :: lv) -> loop_ok up lv cur v a b = true ->
    istep (cycle_for_loop en v a b pb) (fun s => for_loop v a (fun s => ceval up lv cur (w_c s) b) w_loops (fun s => k_loops (w_c s)) cb (w_note (asked up lv cur (w_c s) b) s)) up lv.
  Proof.
    intros GR BODY LK s st s' st' R NN CY FL RN.
    unfold loop_ok in LK. apply andb_true_iff in LK as [LK IE]. apply andb_true_iff in LK as [LK ST]. apply andb_true_iff in LK as [KV _].
    apply negb_true_iff in KV. destruct a as [|?|dz n| | | | | |]; try discriminate ST. destruct n as [a0| |]; try discriminate ST. apply Z.leb_le in ST.
    unfold for_loop in FL. cbs FL as b0 EB. cbs FL as u EU.
    assert (RA : regular (asked up lv cur (w_c st) b)).
    { assert (G := FL). apply (wturns_grows (fun s => s)) in G; [|reflexivity|exact GR]. eapply wgrows_forall in G; [|exact RN]. cbn [w_note w_notes] in G. now apply Forall_app in G as [_ G]. }
    unfold cycle_for_loop in CY. apply mbind_ok in CY as (va & s1 & H1 & CY). apply mbind_ok in CY as (vb & s2 & H2 & CY).
    assert (va = vint a0 /\ s1 = s) as [-> ->].
    { unfold eval_ctl, eval_known in H1. rewrite eval_expr_eq in H1. cbn [bind] in H1. injection H1 as <- <-. auto. }
    destruct (stop_value o preserve wo whole c en up lv cur s _ b b0 vb s2 R RA IE EB H2) as [-> ->].
    apply mbind_ok in CY as (za & s3 & H3 & CY). injection H3 as <- <-. apply mbind_ok in CY as (zb & s4 & H4 & CY). injection H4 as <- <-.
    destruct (lget v (ps_loops s)) eqn:LG; [discriminate|]. apply mbind_ok in CY as ([] & s5 & IT & CY).
    assert (LS : set_loops (ps_loops s) s = s) by now destruct s.
    assert (RG : Forall (fun i => 0 <= i) (zrange a0 b0)).
    { apply Forall_forall. intros i I. apply zrange_in in I. lia. }
    assert (P1 : wrel c up lv (set_loops (ps_loops s) s) (w_c st)) by now rewrite LS.
    destruct (iturns_both v pb _ cb b0 up lv GR BODY _ _ _ (w_note (asked up lv cur (w_c st) b) st) _ _ RG (ldel_none _ _ LG) P1 NN IT FL RN) as (Q1 & Q2).
    rewrite LS in Q1. destruct (a0 <=? b0) eqn:LE.
    - injection CY as <-. rewrite Q2. exact Q1.
    - injection CY as <-. apply Z.leb_gt in LE. rewrite zrange_empty in IT by lia. injection IT as <-. rewrite LS in Q1. exact Q1.
  Qed.

  (** ** Sections *)

  Definition inner (b : block) : M unit :=
    run _ <- modify (fun s => set_dic (init_working (ps_dic s)) s); run _ <- exec_block en b; remove_working.
  (** a block between the two steps that add and remove the working entries *)
  Lemma inner_both b cb up lv w s st s' st' : istep (exec_block en b) cb up lv -> wrel c up lv s (w_c st) -> ps_dic s = cf_dict (k_cur (w_c st)) ++ w -> (w = [] \/ w = [w_up]) -> 0 <= w_num st ->
    inner b s = (Ok tt, s') -> cb st = Val st' -> regular (w_notes st') -> wstep s s' st st'.
  Proof.
    intros IS R D W NN PY CP RN. unfold inner in PY. apply mbind_ok in PY as ([] & s1 & H1 & PY). injection H1 as <-. apply mbind_ok in PY as ([] & s2 & H2 & PY).
    destruct (IS _ _ _ _ (wrel_init _ _ _ _ _ _ R D W) NN H2 CP RN) as (bs & bs' & -> & FA & LB & K & OO & NU).
    destruct (wr_cur _ _ _ _ _ R) as [CL _]. assert (IW := init_app _ _ CL W). rewrite <- D in IW.
    rewrite (remove_app _ _ w CL W) in PY by exact IW. injection PY as <-.
    exists bs, bs'. split; [|split; [exact FA|split; [exact LB|split; [exact K|split; [exact OO|exact NU]]]]].
    rewrite <- D. destruct s; reflexivity.
  Qed.

  (** ** Instructions *)

  Lemma wrun_section_eq up lv cur h t b s : wrun o preserve c up lv cur (ISection h t b) s = in_wframe h (wrun_block o preserve c (kadd (fst h) KSec cur :: up) lv [] b) s.
  Proof. destruct h. reflexivity. Qed.
  Lemma wrun_for_eq up lv cur v a b bd s : wrun o preserve c up lv cur (IFor v a b bd) s =
    for_loop v a (fun s => ceval up lv cur (w_c s) b) w_loops (fun s => k_loops (w_c s)) (wrun_block o preserve c up (v :: lv) cur bd) (w_note (asked up lv cur (w_c s) b) s).
  Proof. reflexivity. Qed.
  Lemma wrun_if_eq up lv cur first more els s : wrun o preserve c up lv cur (IIf first more els) s =
    let* (t, s1) := wtest up lv cur first s in
    if (t : bool) then wrun_branch o preserve c up lv cur first s1 else wrun_branches o preserve c up lv cur more (wrun_block o preserve c up lv cur els) s1.
  Proof. reflexivity. Qed.
  Lemma wrun_cons_eq up lv cur i r s : wrun_block o preserve c up lv cur (BCons i r) s =
    let* s' := wrun o preserve c up lv cur i s in
    match reg_instr up lv cur i with Some cur' => wrun_block o preserve c up lv cur' r s' | None => Undefined end.
  Proof. reflexivity. Qed.
  Lemma wrun_branch_eq up lv cur q la b s : wrun_branch o preserve c up lv cur (Branch q la b) s = wrun_block o preserve c up lv cur b s.
  Proof. reflexivity. Qed.
  Lemma wrun_rcons_eq up lv cur b r els s : wrun_branches o preserve c up lv cur (RCons b r) els s =
    let* (t, s1) := wtest up lv cur b s in
    if (t : bool) then wrun_branch o preserve c up lv cur b s1 else wrun_branches o preserve c up lv cur r els s1.
  Proof. reflexivity. Qed.

  Lemma wtest_both up lv cur q b pb s st t s1 t' st1 : wrel c up lv s (w_c st) -> int_cond up lv cur q = true -> if_statement en q None pb s = (Ok t, s1) ->
    wtest up lv cur (Branch q None b) st = Val (t', st1) -> regular (w_notes st1) -> s1 = s /\ t = t' /\ wrel c up lv s (w_c st1) /\ w_num st1 = w_num st /\ (forall s' st', wstep s s' st1 st' -> wstep s s' st st').
  Proof.
    intros R IC T CC RN. unfold if_statement in T. injection T as T <-. cbn [wtest] in CC. cbs CC as t0 E. injection CC as -> <-.
    split; [reflexivity|]. cbn [w_note w_notes] in RN. apply Forall_app in RN as [_ RN].
    split; [|split; [exact R|split; [reflexivity|auto]]].
    eapply (wcond_both up lv cur s _ (wr_cur _ _ _ _ _ R) (wr_inv _ _ _ _ _ R) (wr_up _ _ _ _ _ R) (wr_loops _ _ _ _ _ R) (wr_lv _ _ _ _ _ R)); eauto. eapply regular_told; eauto.
  Qed.

  Lemma wrun_both :
    (forall i up lv cur cur', reg_instr up lv cur i = Some cur' -> istep (exec en i) (wrun o preserve c up lv cur i) up lv) /\
    (forall b up lv cur cur', reg_block up lv cur b = Some cur' -> istep (exec_block en b) (wrun_block o preserve c up lv cur b) up lv) /\
    (forall b up lv cur cur', reg_branch up lv cur b = Some cur' -> istep (exec_branch en b) (wrun_branch o preserve c up lv cur b) up lv) /\
    (forall r up lv cur acc acc' pels cels, reg_branches up lv cur acc r = Some acc' -> (forall a b, cels a = Val b -> wgrows a b) -> istep pels cels up lv ->
       istep (exec_branches en r pels) (wrun_branches o preserve c up lv cur r cels) up lv).
  Proof.
    apply recipe_mut; try (intros; discriminate).
    - intros head cs f up lv cur cur' RG. destruct head; [discriminate|]. apply guarded_istep. intros s st s' st' R NN PY CP RN. eapply cont_both; eauto.
    - intros cs f up lv cur cur' RG. cbn [reg_instr] in RG. destruct up; [|discriminate]. apply guarded_istep. intros s st s' st' R NN PY CP RN. eapply text_both; eauto.
    - intros cs l1 l2 n1 n2 up lv cur cur' RG. apply guarded_istep. intros s st s' st' R NN PY CP RN. eapply dir_both; eauto.
    - intros cs f x y name up lv cur cur' RG. apply guarded_istep. intros s st s' st' R NN PY CP RN. eapply tab1_both; eauto.
    - intros cs f name up lv cur cur' RG. apply guarded_istep. intros s st s' st' R NN PY CP RN. eapply tab2_both; eauto.
    - intros cs f lb name up lv cur cur' RG. apply guarded_istep. intros s st s' st' R NN PY CP RN. eapply list_rec_both; eauto.
    - intros up lv cur cur' RG. apply guarded_istep. intros s st s' st' R NN PY CP RN. unfold do_stop in PY. rewrite EW in PY. discriminate PY.
    - intros [x q] t b IH up lv cur cur' RG. rewrite exec_section_eq. apply guarded_istep. intros s st s' st' R NN PY CP RN. rewrite wrun_section_eq in CP. cbn [fst] in *.
      destruct (negb (str_eqb x (fst t))); [discriminate|]. cbn [reg_instr] in RG. apply reg_section_inv in RG as (KN & IX & -> & KX & (w & W)).
      assert (PY' : in_section en (Some (x, q)) (inner b) s = (Ok tt, s')).
      { unfold in_section, inner. unfold mbind in PY |- *. destruct (open_section en (x, q) s) as [[[]|] s1]; [|discriminate].
        destruct (modify _ s1) as [[[]|] s2]; [|discriminate]. destruct (exec_block en b s2) as [[[]|] s3]; [|discriminate].
        destruct (remove_working s3) as [[[]|] s4]; [|discriminate]. destruct (close_section s4) as [[[]|] s5]; [|discriminate]. exact PY. }
      destruct (frame_both o preserve wo whole c en EW (inner b) (wrun_block o preserve c (kadd x KSec cur :: up) lv [] b)
        (fun ls p r => exists bs bs', ls = map (ctl c) bs /\ Forall2 (body_alike wo whole) bs bs' /\ Forall (fun b : str => length b = 66%nat) bs /\ fst (fst r) = fst (fst p) ++ tab_text o c (snd (fst p)) bs' /\ snd (fst r) = snd (fst p) + Z.of_nat (length bs'))
        (kadd x KSec cur) up lv x q s st tt s' st' R KX IX) as (ls & -> & K & bs & bs' & -> & FA & LB & OO & NU); auto.
      + intros p r. apply (wrun_grows o preserve c).
      + intros s1 st1 s2 st2 R1 D1 O1 P1 E1 RN1.
        assert (N1 : 0 <= w_num st1) by (apply outs_inj in O1 as (_ & -> & _); exact NN).
        destruct (inner_both b _ _ _ [w_up] s1 st1 s2 st2 (IH _ _ _ _ W) R1 D1 (or_intror eq_refl) N1 P1 E1 RN1) as (bs & bs' & -> & FA & LB & K & OO & NU).
        exists (map (ctl c) bs). split; [reflexivity|]. split; [exact K|]. exists bs, bs'. auto 10.
      + exists bs, bs'. auto 10.
    - intros v a b bd IH up lv cur cur' RG. rewrite exec_for_eq. apply guarded_istep. cbn [reg_instr] in RG. destruct (loop_ok up lv cur v a b) eqn:LK; [|discriminate].
      intros s st s' st' R NN PY CP RN. rewrite wrun_for_eq in CP.
      eapply (ifor_both v a b (exec_block en bd) (wrun_block o preserve c up (v :: lv) cur bd) up lv cur); eauto.
      intros p q. apply (wrun_grows o preserve c).
    - intros [q la bd] IH1 more IH2 els IH3 up lv cur cur' RG. rewrite exec_if_eq. apply guarded_istep. intros s st s' st' R NN PY CP RN. rewrite wrun_if_eq in CP. cbn [reg_instr] in RG.
      destruct (reg_branch up lv cur (Branch q la bd)) as [c1|] eqn:R1; [|discriminate].
      destruct (reg_branches up lv cur c1 more) as [c2|] eqn:R2; [|discriminate]. destruct (reg_block up lv cur els) as [c3|] eqn:R3; [|discriminate].
      assert (IC : la = None /\ int_cond up lv cur q = true).
      { cbn [reg_branch] in R1. destruct la; [discriminate|]. destruct (int_cond up lv cur q); [auto|discriminate]. }
      destruct IC as [-> IC]. apply mbind_ok in PY as (t & s1 & T1 & PY). cbs CP as [t' st1] T2. rewrite test_branch_eq in T1.
      assert (GE : forall a b, wrun_block o preserve c up lv cur els a = Val b -> wgrows a b) by (intros a b; apply (wrun_grows o preserve c)).
      assert (RN1 : regular (w_notes st1)).
      { eapply wgrows_forall; [|exact RN]. destruct t'; [eapply (proj1 (proj2 (proj2 (wrun_grows o preserve c)))); exact CP|].
        eapply (proj2 (proj2 (proj2 (wrun_grows o preserve c)))); [|exact CP]. exact GE. }
      destruct (wtest_both up lv cur q bd _ s st t s1 t' st1 R IC T1 T2 RN1) as (-> & -> & RR & NU & FW). apply FW. rewrite <- NU in NN.
      destruct t'.
      + eapply (IH1 up lv cur c1); eauto.
      + eapply (IH2 up lv cur c1 c2 (exec_block en els) (wrun_block o preserve c up lv cur els)); eauto.
    - intros up lv cur cur' RG s st s' st' R NN PY CP RN. rewrite exec_nil_eq in PY. injection PY as <-. injection CP as <-. apply wstep_refl.
    - intros i IHi r IHr up lv cur cur' RG s st s' st' R NN PY CP RN. rewrite wrun_cons_eq in CP. rewrite exec_cons_eq in PY.
      unfold mbind at 1, should_proceed in PY. rewrite (wr_look _ _ _ _ _ R) in PY. cbn [reg_block] in RG.
      destruct (reg_instr up lv cur i) as [c1|] eqn:R1; [|discriminate]. apply mbind_ok in PY as ([] & s1 & H1 & H2). cbs CP as st1 E1.
      assert (RN1 : regular (w_notes st1)) by (eapply wgrows_forall; [eapply (proj1 (proj2 (wrun_grows o preserve c))); exact CP|exact RN]).
      pose proof (IHi _ _ _ _ R1 _ _ _ _ R NN H1 E1 RN1) as W1.
      pose proof (IHr _ _ _ _ RG _ _ _ _ (wstep_rel _ _ _ _ _ _ _ _ _ _ W1 R) (wstep_num _ _ _ _ W1 NN) H2 CP RN) as W2.
      exact (wstep_trans _ _ _ _ _ _ _ _ _ _ W1 W2).
    - intros q la b IH up lv cur cur' RG s st s' st' R NN PY CP RN. rewrite exec_branch_eq in PY. rewrite wrun_branch_eq in CP.
      cbn [reg_branch] in RG. destruct la; [discriminate|]. destruct (int_cond up lv cur q); [|discriminate]. eapply IH; eauto.
    - intros up lv cur acc acc' pels cels RG GE EL s st s' st' R NN PY CP RN. rewrite exec_rnil_eq in PY. eapply EL; eauto.
    - intros [q la bd] IHb r IHr up lv cur acc acc' pels cels RG GE EL s st s' st' R NN PY CP RN.
      rewrite exec_rcons_eq in PY. rewrite wrun_rcons_eq in CP. cbn [reg_branches] in RG.
      destruct (reg_branch up lv cur (Branch q la bd)) as [c1|] eqn:R1; [|discriminate]. destruct (merge acc c1) as [m|] eqn:ME; [|discriminate].
      assert (IC : la = None /\ int_cond up lv cur q = true).
      { cbn [reg_branch] in R1. destruct la; [discriminate|]. destruct (int_cond up lv cur q); [auto|discriminate]. }
      destruct IC as [-> IC]. apply mbind_ok in PY as (t & s1 & T1 & PY). cbs CP as [t' st1] T2. rewrite test_branch_eq in T1.
      assert (RN1 : regular (w_notes st1)).
      { eapply wgrows_forall; [|exact RN]. destruct t'; [eapply (proj1 (proj2 (proj2 (wrun_grows o preserve c)))); exact CP|].
        eapply (proj2 (proj2 (proj2 (wrun_grows o preserve c)))); [|exact CP]. exact GE. }
      destruct (wtest_both up lv cur q bd _ s st t s1 t' st1 R IC T1 T2 RN1) as (-> & -> & RR & NU & FW). apply FW. rewrite <- NU in NN.
      destruct t'.
      + eapply (IHb up lv cur c1); eauto.
      + eapply (IHr up lv cur m acc' pels cels); eauto.
  Qed.
End Run.
