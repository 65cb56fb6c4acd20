(** The generated C++ functions for writing: notes, sections, fields. *)
From Coq Require Import Ascii String ZArith Bool Lia List.
From Coq Require Import Floats.SpecFloat.
From Verif Require Import PyBase ProofPyBase PyFloat ProofFloat ModelFortran ModelRecords ModelTape ProofFields ProofRecords ProofCppWrite ProofCppTab.
From Verif Require Import ModelNum ModelRecipe ModelInterp SpecInterp
  ModelCpp ModelCppTab ModelCppArr SpecCpp SpecCppTab SpecCppRead ModelCppGen SpecCppGen ModelCppWrite SpecCppWrite.
From Verif Require Import ProofInterp ProofInterpSec ProofInterpFrame ProofInterpWrite ProofInterpMap.
From Verif Require Import ProofCppArr ProofCppGenRead ProofCppGenMap ProofCppGenEval ProofCppGenReg ProofCppWriteEval.
Import ListNotations.
Open Scope Z_scope.

(** ** Notes *)

Definition wgrows (s s' : wstate) : Prop := exists l, w_notes s' = w_notes s ++ l.
Lemma wgrows_refl s : wgrows s s. Proof. exists []. now rewrite app_nil_r. Qed.
Lemma wgrows_trans a b c : wgrows a b -> wgrows b c -> wgrows a c.
Proof. intros [l E] [m G]. exists (l ++ m). now rewrite G, E, app_assoc. Qed.
Lemma wgrows_same s s' : w_notes s' = w_notes s -> wgrows s s'.
Proof. intros E. exists []. now rewrite app_nil_r. Qed.
Lemma wgrows_notes s l : wgrows s (w_note l s).
Proof. now exists l. Qed.
Lemma wgrows_forall P s s' : wgrows s s' -> Forall P (w_notes s') -> Forall P (w_notes s).
Proof. intros [l E] H. rewrite E in H. now apply Forall_app in H as [H _]. Qed.

Section WGrow.
  Variables (o : cwopts) (preserve : bool) (c : ctrl).
  Lemma prepare_notes s : w_notes (prepare o c s) = w_notes s.
  Proof. unfold prepare. now destruct (cpp_prepare_line _ _ _ _ _). Qed.
  Lemma put_float_grows j v e s s' : put_float o preserve j v e s = Val s' -> wgrows s s'.
  Proof. unfold put_float. intros H. cb H. injection H as <-. apply (wgrows_notes (w_line a s)). Qed.
  Lemma put_value_grows t j v s s' w : put_value o preserve t j v s = Val (s', w) -> wgrows s s'.
  Proof.
    destruct t; cbn [put_value]; intros H; [| |discriminate]; cb H.
    - injection H as <- _. now apply wgrows_same.
    - destruct a as [n e]. cb H. injection H as <- _. eapply put_float_grows; eauto.
  Qed.
  Lemma w_assign_grows x ix v s s' : w_assign x ix v s = Val s' -> wgrows s s'.
  Proof. unfold w_assign. intros H. cb H. injection H as <-. now apply wgrows_same. Qed.
  Lemma wfield_grows up lv t cur e j s s' : wfield o preserve up lv t cur e j s = Val s' -> wgrows s s'.
  Proof.
    unfold wfield. destruct (plan_of up lv cur t e) as [[v|x ix|x ix]|]; [| | |discriminate]; intros H.
    - destruct t, v; cbn [put_number] in H; try discriminate; try (eapply put_float_grows; eauto; fail). cb H. injection H as <-. now apply wgrows_same.
    - cb H. cb H. destruct a0 as [s1 w]. eapply wgrows_trans; [eapply put_value_grows|eapply w_assign_grows]; eauto.
    - cb H. cb H. destruct a0 as [s1 w]. eapply wgrows_trans; [eapply put_value_grows; eauto|]. unfold w_assign_new in H. cb H.
      destruct a0; [injection H as <-; apply wgrows_refl|eapply w_assign_grows; eauto].
  Qed.
  Lemma wfields_grows up lv fs : forall cur s s', wfields o preserve up lv cur fs s = Val s' -> wgrows s s'.
  Proof.
    induction fs as [|[[j t] e] fs IH]; intros cur s s' H; cbn [wfields] in H; [injection H as <-; apply wgrows_refl|].
    destruct (reg_field up lv t cur e); [|discriminate]. cb H. eapply wgrows_trans; [eapply wfield_grows; eauto|eauto].
  Qed.
  Lemma wtexts_grows fs : forall first ofs s s', wtexts first ofs fs s = Val s' -> wgrows s s'.
  Proof.
    induction fs as [|[u n] fs IH]; intros first ofs s s' H; cbn [wtexts] in H; [injection H as <-; apply wgrows_refl|].
    destruct (text_length first (u, n)) as [len|]; [|discriminate]. cb H. apply IH in H. eapply wgrows_trans; [|exact H].
    destruct u as [[x ix]|]; [|injection E as <-; apply wgrows_refl]. cb E. cb E. apply w_assign_grows in E.
    eapply wgrows_trans; [|exact E]. apply (wgrows_notes (w_line _ s)).
  Qed.
  Lemma wcolumns_notes up cols : forall cur s, w_notes (wcolumns up cur cols s) = w_notes s.
  Proof.
    induction cols as [|[x v] cols IH]; intros cur s; cbn [wcolumns]; [reflexivity|]. rewrite IH.
    destruct (vget _ _); [destruct (resolve _ _)|]; reflexivity.
  Qed.
  Lemma in_wframe_grows u body s s' : (forall a b, body a = Val b -> wgrows a b) -> in_wframe u body s = Val s' -> wgrows s s'.
  Proof.
    intros B H. unfold in_wframe in H. destruct u as [x q]. cb H. cb H. destruct a0 as [found f]. destruct found; try discriminate.
    cb H. apply B in E1. destruct (k_up (w_c a0)) as [|f1 up]; [discriminate|]. injection H as <-.
    eapply wgrows_trans; [|apply (wgrows_trans _ a0); [exact E1|now apply wgrows_same]].
    apply (wgrows_notes (w_with _ s)).
  Qed.
  Lemma in_wnamed_grows name body s s' : (forall a b, body a = Val b -> wgrows a b) -> in_wnamed name body s = Val s' -> wgrows s s'.
  Proof. destruct name; cbn [in_wnamed]; [apply in_wframe_grows|auto]. Qed.

  Lemma wturns_grows {A} (st : A -> wstate) v stop setl getl body b : (forall l a, w_notes (st (setl l a)) = w_notes (st a)) ->
    (forall a a', body a = Val a' -> wgrows (st a) (st a')) ->
    forall is_ a a', turns v stop setl getl body b is_ a = Val a' -> wgrows (st a) (st a').
  Proof.
    intros S B. induction is_ as [|i r IH]; intros a a' H; cbn [turns] in H; cb H; destruct (_ =? b); try discriminate.
    - injection H as <-. apply wgrows_refl.
    - cb H. apply B in E0. apply IH in H. eapply wgrows_trans; [|eapply wgrows_trans; [exact E0|eapply wgrows_trans; [|exact H]]]; now apply wgrows_same.
  Qed.
  Lemma wfor_grows {A} (st : A -> wstate) v start stop setl getl body : (forall l a, w_notes (st (setl l a)) = w_notes (st a)) ->
    (forall a a', body a = Val a' -> wgrows (st a) (st a')) ->
    forall a a', for_loop v start stop setl getl body a = Val a' -> wgrows (st a) (st a').
  Proof.
    intros S B a a' H. unfold for_loop in H. destruct start; try discriminate. destruct v0; try discriminate. cb H. cb H.
    eapply wturns_grows; eauto.
  Qed.
  Lemma wlist_expr_grows npl up lv cur e l l' : wlist_expr o preserve c npl up lv cur e l = Val l' -> wgrows (wl_st l) (wl_st l').
  Proof.
    unfold wlist_expr. intros H. cb H. apply wfield_grows in E. destruct (_ && _); injection H as <-; cbn [wl_st]; [|exact E].
    eapply wgrows_trans; [exact E|]. apply wgrows_same. now rewrite prepare_notes.
  Qed.
  Lemma wlist_grows npl :
    (forall i up lv cur l l', wlist_item o preserve c npl up lv cur i l = Val l' -> wgrows (wl_st l) (wl_st l')) /\
    (forall b up lv cur l l', wlist_body o preserve c npl up lv cur b l = Val l' -> wgrows (wl_st l) (wl_st l')).
  Proof.
    apply lrecipe_mut; cbn [wlist_item wlist_body]; try discriminate.
    - intros e up lv cur l l' H. eapply wlist_expr_grows; eauto.
    - intros v a b body IH up lv cur l l' H. eapply (wfor_grows wl_st) in H; [|reflexivity|eauto].
      eapply wgrows_trans; [|exact H]. apply (wgrows_notes (wl_st l)).
    - intros up lv cur l l' H. injection H as <-. apply wgrows_refl.
    - intros i IHi r IHr up lv cur l l' H. cb H. destruct (reg_litem up lv cur i); [|discriminate]. eapply wgrows_trans; eauto.
  Qed.
  Lemma wlist_all_grows npl up lv cur body s s' : wlist o preserve c npl up lv cur body s = Val s' -> wgrows s s'.
  Proof.
    unfold wlist. intros H. cb H. apply (proj2 (wlist_grows npl)) in E. destruct (_ =? npl); [|discriminate]. injection H as <-.
    eapply wgrows_trans; [|apply (wgrows_notes (flush _))]. eapply wgrows_trans; [|eapply wgrows_trans; [exact E|]].
    - apply wgrows_same. cbn [wl_st]. now rewrite prepare_notes.
    - now apply wgrows_same.
  Qed.
  Lemma wtest_grows up lv cur b s t s' : wtest up lv cur b s = Val (t, s') -> wgrows s s'.
  Proof. destruct b. cbn [wtest]. intros H. cb H. injection H as _ <-. apply wgrows_notes. Qed.
  Lemma wrun_grows :
    (forall i up lv cur s s', wrun o preserve c up lv cur i s = Val s' -> wgrows s s') /\
    (forall b up lv cur s s', wrun_block o preserve c up lv cur b s = Val s' -> wgrows s s') /\
    (forall b up lv cur s s', wrun_branch o preserve c up lv cur b s = Val s' -> wgrows s s') /\
    (forall r up lv cur els s s', (forall a b, els a = Val b -> wgrows a b) -> wrun_branches o preserve c up lv cur r els s = Val s' -> wgrows s s').
  Proof.
    assert (FL : forall p q s, wgrows p q -> s = flush q -> wgrows p s).
    { intros p q s G ->. eapply wgrows_trans; [exact G|now apply wgrows_same]. }
    assert (FP : forall up lv cur fs s q, wfields o preserve up lv cur fs (prepare o c s) = Val q -> wgrows s q).
    { intros up lv cur fs s q H. apply wfields_grows in H. eapply wgrows_trans; [|exact H]. apply wgrows_same. apply prepare_notes. }
    apply recipe_mut; cbn [wrun wrun_block wrun_branch wrun_branches]; try discriminate.
    - intros head cs f up lv cur s s' H. unfold wcont in H. cb H. injection H as <-. eapply FL; [eapply FP; eauto|reflexivity].
    - intros cs f up lv cur s s' H. unfold wtext in H. cb H. injection H as <-. eapply FL; [|reflexivity]. apply wtexts_grows in E.
      eapply wgrows_trans; [|exact E]. apply wgrows_same. apply prepare_notes.
    - intros cs l1 l2 n1 n2 up lv cur s s' H. unfold wdir in H. cb H. injection H as <-. eapply FL; [eapply FP; eauto|reflexivity].
    - intros cs f x y name up lv cur s s' H. unfold wtab1 in H. cb H. destruct (vars_in _ _ _) as [up' cur'].
      eapply wgrows_trans; [eapply FP; eauto|]. revert H. apply in_wnamed_grows. intros p q H. do 10 (cb H). cbs H as [t n] EE. apply val_inj in H. subst q.
      eapply wgrows_trans; [|apply wgrows_same; cbn [flush w_notes]; rewrite wcolumns_notes; reflexivity]. eexists; reflexivity.
    - intros cs f name up lv cur s s' H. unfold wtab2 in H. cb H. destruct (vars_in _ _ _) as [up' cur'].
      eapply wgrows_trans; [eapply FP; eauto|]. revert H. apply in_wnamed_grows. intros p q H. do 5 (cb H). cbs H as [t n] EE. apply val_inj in H. subst q.
      eapply wgrows_trans; [|apply wgrows_same; cbn [flush w_notes]; rewrite wcolumns_notes; reflexivity]. now apply wgrows_same.
    - intros cs f body name up lv cur s s' H. unfold wlistrec in H. cb H. cb H. destruct (vars_in _ _ _) as [up' cur'].
      eapply wgrows_trans; [eapply FP; eauto|]. apply in_wnamed_grows in H.
      + eapply wgrows_trans; [|exact H]. now apply wgrows_same.
      + intros p q Q. cb Q. eapply wlist_all_grows; eauto.
    - intros up lv cur s s' H. cb H. injection H as <-. now apply wgrows_same.
    - intros up lv cur s s' H. injection H as <-. apply wgrows_refl.
    - intros [x ix] tail body IH up lv cur s s' H. destruct (vars_in _ _ _) as [up' cur']. revert H. apply in_wframe_grows. eauto.
    - intros v a b body IH up lv cur s s' H. eapply (wfor_grows (fun s => s)) in H; [|reflexivity|eauto].
      eapply wgrows_trans; [apply wgrows_notes|exact H].
    - intros first IH1 more IH2 els IH3 up lv cur s s' H. cb H. destruct a as [t s1]. apply wtest_grows in E. eapply wgrows_trans; [exact E|].
      destruct t; [eauto|]. eapply IH2; [|exact H]. eauto.
    - intros up lv cur s s' H. injection H as <-. apply wgrows_refl.
    - intros i IHi r IHr up lv cur s s' H. cb H. destruct (reg_instr up lv cur i); [|discriminate]. eapply wgrows_trans; [exact (IHi _ _ _ _ _ E)|exact (IHr _ _ _ _ _ H)].
    - intros q la body IH up lv cur s s' H. eauto.
    - intros up lv cur els s s' EL H. eauto.
    - intros b IHb r IHr up lv cur els s s' EL H. cb H. destruct a as [t s1]. apply wtest_grows in E. eapply wgrows_trans; [exact E|]. destruct t; eauto.
  Qed.
End WGrow.

(** ** What the program keeps *)

Record wkeep (a b : cstate) : Prop := {
  wk_up : k_up b = k_up a;
  wk_loops : k_loops b = k_loops a;
  wk_dict : cf_dict (k_cur b) = cf_dict (k_cur a);
  wk_inv : winv (k_cur a) -> winv (k_cur b) }.
Lemma wkeep_refl a : wkeep a a. Proof. split; auto. Qed.
Lemma wkeep_trans a b c : wkeep a b -> wkeep b c -> wkeep a c.
Proof. intros [A1 A2 A3 A4] [B1 B2 B3 B4]. split; [congruence|congruence|congruence|auto]. Qed.

(** Python and C++ at the same place *)
Record wrel (c : ctrl) (up : list vars) (lv : list str) (s : pstate) (k : cstate) : Prop := {
  wr_cur : wdic (ps_dic s) (k_cur k);
  wr_inv : winv (k_cur k);
  wr_up : wups up (ps_up s) (k_up k);
  wr_loops : k_loops k = ps_loops s;
  wr_lv : loops_ok lv (ps_loops s);
  wr_look : ps_look s = None;
  wr_ctrl : get_ctrl (ps_dic s) (ps_up s) = Ok c }.
Lemma wdic_dict d f g : cf_dict g = cf_dict f -> wdic d f -> wdic d g.
Proof. unfold wdic. now intros ->. Qed.
Lemma wrel_keep c up lv s a b ls : wkeep a b -> wrel c up lv s a -> wrel c up lv (add_lines ls s) b.
Proof.
  intros [K1 K2 K3 K4] [R1 R2 R3 R4 R5 R6 R7]. split; cbn [add_lines ps_dic ps_up ps_loops ps_look]; auto.
  - eapply wdic_dict; eauto.
  - now rewrite K1.
  - now rewrite K2.
Qed.
Lemma add_lines_nil s : add_lines [] s = s. Proof. destruct s. unfold add_lines. cbn. now rewrite app_nil_r. Qed.
Lemma add_lines_app a b s : add_lines b (add_lines a s) = add_lines (a ++ b) s.
Proof. unfold add_lines. cbn. now rewrite app_assoc. Qed.

(** ** Sections *)

Lemma open_same name ks : forall cur inner cur', open_path false name ks cur = Ok (inner, cur') ->
  cur' = cur /\ path_get ks cur = Some (VDict inner).
Proof.
  induction ks as [|k ks IH]; intros cur inner cur' H; cbn [open_path] in H.
  - destruct cur; try discriminate. injection H as <- <-. auto.
  - destruct cur as [| | |d| | | |]; try discriminate. cbn [path_get]. destruct (dget k d) as [u|] eqn:D; [|discriminate].
    destruct (open_path false name ks u) as [[i u']|] eqn:O; [|discriminate]. cbn [bind] in H. injection H as <- <-.
    destruct (IH _ _ _ O) as [-> P]. split; [|exact P]. now rewrite (dset_same k u d D).
Qed.
Lemma put_same ks v : forall old, path_get ks old = Some v -> put_path ks v old = old.
Proof.
  induction ks as [|k ks IH]; intros old H; cbn [path_get put_path] in *; [now injection H|].
  destruct old as [| | |d| | | |]; try discriminate. destruct (dget k d) as [u|] eqn:D; [|discriminate].
  rewrite (IH _ H). now rewrite (dset_same k u d D).
Qed.
Lemma shift_path : forall ix cur sh v sh', shift_get ix cur sh = Val (v, sh') -> path_get (map KInt ix) cur = Some v.
Proof.
  induction ix as [|i ix IH]; intros cur sh v sh' H; [discriminate|]. cbn [shift_get] in H.
  destruct cur as [| | |d| | | |]; try discriminate. destruct sh as [s0 acc next]. cbn [map path_get]. destruct ix as [|j ix].
  - destruct (dget (KInt i) d); [|discriminate]. injection H as <- _. reflexivity.
  - destruct (get_next_level _ next) as [[levels lv]| |]; try discriminate. cbn [cbind] in H.
    destruct (dget (KInt i) d) as [u|]; [|discriminate]. cbs H as [found lv'] E. injection H as <- _. eauto.
Qed.
Lemma clean_path ks : forall v w, clean v -> path_get ks v = Some w -> clean w.
Proof.
  induction ks as [|k ks IH]; intros v w C H; cbn [path_get] in H; [now injection H as <-|].
  destruct v as [| | |d| | | |]; try discriminate. destruct (dget k d) as [u|] eqn:D; [|discriminate]. eauto using clean_sub.
Qed.
Lemma ddel_app k v d w : dget k d = None -> ddel k (d ++ (k, v) :: w) = d ++ w.
Proof.
  intros H. induction d as [|[j u] d IH]; cbn [app ddel dget] in *.
  - now rewrite key_eqb_refl.
  - destruct (key_eqb k j); [discriminate|]. f_equal. auto.
Qed.
Lemma clean_none d k : clean (VDict d) -> working_key k -> dget k d = None.
Proof. intros C W. destruct (dget k d) eqn:G; [|reflexivity]. exfalso. eapply clean_working; eauto. Qed.

(** the entries that Python adds *)
Definition w_up : key * val := (KStr $"__up", VUp).
Definition w_abb : key * val := (KStr $"__abbrevs", VNames []).
Definition w_sta : key * val := (KStr $"__startidcs", VDict []).
Lemma wk1 : working_key (KStr $"__up"). Proof. now left. Qed.
Lemma wk2 : working_key (KStr $"__abbrevs"). Proof. right. now left. Qed.
Lemma wk3 : working_key (KStr $"__startidcs"). Proof. right. now right. Qed.
Lemma dget_app_none k v d w : dget k d = None -> dget k (d ++ (k, v) :: w) = Some v.
Proof. intros H. now rewrite dget_app, H; cbn [dget]; rewrite key_eqb_refl. Qed.
Lemma init_app d w : clean (VDict d) -> (w = [] \/ w = [w_up]) -> init_working (d ++ w) = d ++ w ++ [w_abb; w_sta].
Proof.
  intros C W. unfold init_working. pose proof (clean_none d _ C wk2) as N2. pose proof (clean_none d _ C wk3) as N3.
  destruct W as [-> | ->].
  - rewrite !app_nil_r. rewrite (dset_new (KStr $"__abbrevs") _ d N2). rewrite dset_new; [now rewrite <- app_assoc|]. rewrite dget_app, N3. reflexivity.
  - rewrite (dset_new (KStr $"__abbrevs") _ (d ++ [w_up])) by (rewrite dget_app, N2; reflexivity). rewrite dset_new; [now rewrite <- !app_assoc|]. rewrite !dget_app, N3. reflexivity.
Qed.
Lemma remove_app s d w : clean (VDict d) -> (w = [] \/ w = [w_up]) -> ps_dic s = d ++ w ++ [w_abb; w_sta] -> remove_working s = (Ok tt, set_dic (d ++ w) s).
Proof.
  intros C W E. unfold remove_working. rewrite E. pose proof (clean_none d _ C wk2) as N2. pose proof (clean_none d _ C wk3) as N3.
  assert (G : dget (KStr $"__abbrevs") (d ++ w ++ [w_abb; w_sta]) = Some (VNames [])).
  { rewrite dget_app, N2. destruct W as [-> | ->]; reflexivity. }
  rewrite G. cbn [del_names]. do 2 f_equal. f_equal. destruct W as [-> | ->]; cbn [app].
  - unfold w_abb. rewrite (ddel_app _ _ d _ N2). unfold w_sta. now rewrite (ddel_app _ _ d _ N3).
  - replace (d ++ [w_up; w_abb; w_sta]) with ((d ++ [w_up]) ++ [w_abb; w_sta]) by now rewrite <- app_assoc.
    unfold w_abb. rewrite ddel_app by (rewrite dget_app, N2; reflexivity). unfold w_sta. rewrite ddel_app by (rewrite dget_app, N3; reflexivity). now rewrite app_nil_r.
Qed.

(** control numbers *)
Definition same3 (d e : dict) : Prop := forall x, In x [$"MAT"; $"MF"; $"MT"] -> dget (KStr x) d = dget (KStr x) e.
Lemma ctrl_same3 up : Forall (fun f => known (fr_name f) special_names = false) up -> forall d e, same3 d e -> get_ctrl d up = get_ctrl e up.
Proof.
  intros F. unfold get_ctrl.
  assert (K : forall d e, same3 d e -> same3 (ctrl_dic d up) (ctrl_dic e up)).
  { induction F as [|f up NS F IH]; intros d e S; cbn [ctrl_dic]; rewrite (S $"MAT" (or_introl eq_refl)); destruct (dget (KStr $"MAT") e); auto.
    apply IH. intros x I. rewrite !outer_other; [reflexivity| |]; intros E; injection E as E; rewrite <- E in NS; destruct I as [<-|[<-|[<-|[]]]]; discriminate NS. }
  intros d e S. specialize (K d e S). cbn zeta. rewrite (K $"MAT"), (K $"MF"), (K $"MT") by (cbn; auto). reflexivity.
Qed.
Lemma wups_names Vs up cs : wups Vs up cs -> Forall (fun f => known (fr_name f) special_names = false) up.
Proof. induction 1; constructor; auto. Qed.

Lemma special_own x : known x special_names = false -> ~ working_key (KStr x).
Proof. intros H [E|[E|E]]; injection E as ->; discriminate H. Qed.

(** a section is opened *)
Lemma open_w en c V up lv x q s k s1 zs found f : e_write en = true -> wrel c up lv s k -> known x special_names = false ->
  kget x V = Some KSec -> forallb (index_ok lv) q = true -> open_section en (x, q) s = (Ok tt, s1) -> cmapM (index_value (k_loops k)) q = Val zs ->
  store_get x zs (k_cur k) = Val (found, f) -> exists inner, found = VDict inner /\ clean (VDict inner) /\ cf_dict f = cf_dict (k_cur k) /\ (winv f) /\
    s1 = set_up ({| fr_dic := ps_dic s; fr_name := x; fr_idx := zs |} :: ps_up s) (inner ++ [w_up]) s /\
    outer {| fr_dic := ps_dic s; fr_name := x; fr_idx := zs |} inner = ps_dic s /\
    (dget (KStr $"MAT") inner = None -> forall w, Forall (fun p => working_key (fst p)) w -> get_ctrl (inner ++ w) ({| fr_dic := ps_dic s; fr_name := x; fr_idx := zs |} :: ps_up s) = Ok c) /\
    wups (V :: up) ({| fr_dic := ps_dic s; fr_name := x; fr_idx := zs |} :: ps_up s) (f :: k_up k).
Proof.
  intros EW R NS KS IX OP CZ SG. unfold open_section in OP. rewrite EW in OP. cbn [negb] in OP.
  assert (MZ : mapM (get_indexvalue (ps_loops s)) q = Ok zs).
  { rewrite (wr_loops _ _ _ _ _ R) in CZ. pose proof (wr_lv _ _ _ _ _ R) as LO. clear - CZ IX LO. revert zs CZ. induction q as [|i q IH]; intros zs CZ; cbn [cmapM mapM forallb] in *.
    - now injection CZ as <-.
    - apply andb_true_iff in IX as [I1 I2]. cbs CZ as z EZ. cbs CZ as r ER. injection CZ as <-. destruct (index_both lv _ i z LO I1 EZ) as [-> _]. cbn [bind]. rewrite (IH I2 r eq_refl). reflexivity. }
  rewrite MZ in OP. cbn [bind] in OP. destruct (open_path false x (KStr x :: map KInt zs) (VDict (ps_dic s))) as [[inner cur']|] eqn:O; [|discriminate]. cbn [bind] in OP.
  destruct (open_same _ _ _ _ _ O) as [-> PG]. injection OP as <-.
  pose proof (special_own x NS) as NW. pose proof (wr_cur _ _ _ _ _ R) as WD.
  assert (PD : path_get (KStr x :: map KInt zs) (VDict (cf_dict (k_cur k))) = Some (VDict inner)).
  { cbn [path_get] in PG |- *. now rewrite <- (wdic_none _ _ _ WD NW). }
  assert (CI : clean (VDict inner)) by (eapply clean_path; [apply (proj1 WD)|exact PD]).
  assert (HX : has x (k_cur k) = true).
  { unfold has. cbn [path_get] in PD. destruct (dget (KStr x) (cf_dict (k_cur k))); [reflexivity|discriminate]. }
  assert (SF : found = VDict inner /\ cf_dict f = cf_dict (k_cur k) /\ cf_vars f = cf_vars (k_cur k)).
  { unfold store_get in SG. cbn [path_get] in PD. destruct (dget (KStr x) (cf_dict (k_cur k))) as [u|]; [|discriminate].
    destruct zs as [|z zs]; [cbn [map path_get] in PD; injection SG as <- <-; injection PD as ->; auto|].
    cbs SG as [v sh'] E. injection SG as <- <-. apply shift_path in E. rewrite E in PD. injection PD as ->. auto. }
  destruct SF as (-> & FD & FV). exists inner. split; [reflexivity|]. split; [exact CI|]. split; [exact FD|].
  assert (WF : winv f). { intros y cl H. rewrite FD. rewrite FV in H. now apply (wr_inv _ _ _ _ _ R). }
  split; [exact WF|]. split; [|split; [|split]].
  - now rewrite dset_new by (apply clean_none; [exact CI|apply wk1]).
  - unfold outer, frame_keys. cbn [fr_name fr_idx fr_dic]. now rewrite (put_same _ _ _ PG).
  - intros NM w WW. unfold get_ctrl. cbn [ctrl_dic]. rewrite dget_app, NM, (dget_working _ w WW) by (intros [E|[E|E]]; discriminate E).
    fold (get_ctrl (outer {| fr_dic := ps_dic s; fr_name := x; fr_idx := zs |} (inner ++ w)) (ps_up s)).
    rewrite <- (wr_ctrl _ _ _ _ _ R). apply ctrl_same3; [eapply wups_names; apply (wr_up _ _ _ _ _ R)|].
    intros y I. apply outer_other. cbn [fr_name]. intros E. injection E as <-. destruct I as [<-|[<-|[<-|[]]]]; discriminate NS.
  - constructor; cbn [fr_dic fr_name]; auto.
    + eapply wdic_dict; eauto.
    + unfold has. rewrite FD. exact HX.
    + apply (wr_up _ _ _ _ _ R).
Qed.
