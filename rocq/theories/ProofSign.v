(** Proof of C55. *)
From Coq Require Import Ascii String ZArith Bool Lia List.
From Coq Require Import Floats.SpecFloat.
From Verif Require Import PyBase PyFloat ModelFortran ModelRecords ModelTape ModelNum ModelRecipe ModelInterp.
From Verif Require Import SpecInterp SpecSign ProofPyBase ProofInterp ProofInterpFrame ProofInterpCtl ProofInterpSec ProofInterpMap ProofInterpWrite.
Import ListNotations.
Open Scope Z_scope.

(** ** The writers *)
Definition ends (c : ctrl) (l : str) : Prop := exists t, l = t ++ write_ctrl c.

Lemma ends_map c (ls : list str) : Forall (ends c) (map (fun t : str => t ++ write_ctrl c) ls).
Proof. induction ls; constructor; [eexists; reflexivity|assumption]. Qed.
Lemma ends_one c t : Forall (ends c) [t ++ write_ctrl c].
Proof. constructor; [eexists; reflexivity|constructor]. Qed.

Lemma cont_ends wo r c ls : write_cont wo r c = Ok ls -> Forall (ends c) ls.
Proof.
  unfold write_cont. intros H. do 6 dbind H. injection H as <-. rewrite !app_assoc. apply ends_one.
Qed.
Lemma list_ends wo r c vs ls : write_list wo r c vs = Ok ls -> Forall (ends c) ls.
Proof.
  unfold write_list. intros H. destruct (num_lt_Z _ _); [discriminate|]. destruct (Z_lt_num _ _); [discriminate|].
  dbind H. dbind H. injection H as <-. apply Forall_app. split; [exact (cont_ends _ _ _ _ E)|apply ends_map].
Qed.
Lemma tab1_ends wo r c n i xs ys ls : write_tab1 wo r c n i xs ys = Ok ls -> Forall (ends c) ls.
Proof.
  unfold write_tab1. intros H. dbind H. dbind H. injection H as <-. apply Forall_app. split; [exact (cont_ends _ _ _ _ E)|apply ends_map].
Qed.
Lemma tab2_ends wo r c n i ls : write_tab2 wo r c n i = Ok ls -> Forall (ends c) ls.
Proof.
  unfold write_tab2. intros H. destruct (negb _); [discriminate|]. dbind H. dbind H. injection H as <-. apply Forall_app.
  split; [exact (cont_ends _ _ _ _ E)|apply ends_map].
Qed.

Lemma put_other k k' r v d : k <> k' -> forall d', put_path (k' :: r) v (VDict d) = VDict d' -> dget k d' = dget k d.
Proof.
  intros N d' H. cbn [put_path] in H. destruct (dget k' d); injection H as <-; [|reflexivity]. apply dget_dset_other. exact N.
Qed.
Lemma outer_other k f d : k <> KStr (fr_name f) -> dget k (outer f d) = dget k (fr_dic f).
Proof.
  intros N. unfold outer, frame_keys. destruct (put_path _ _ _) eqn:E; try reflexivity. exact (put_other _ _ _ _ _ N _ E).
Qed.

Section Signed.
  Variable c : ctrl.
  Definition kMAT := KStr $"MAT". Definition kMF := KStr $"MF". Definition kMT := KStr $"MT".

  (** where the control numbers are found *)
  Inductive chain : dict -> list frame -> Prop :=
  | ch_top d up : dget kMAT d = Some (vint (MAT c)) -> dget kMF d = Some (vint (MF c)) -> dget kMT d = Some (vint (MT c)) -> chain d up
  | ch_abbr d up e : dget kMAT d = Some (VExpr e) -> chain d up
  | ch_up d f fs : dget kMAT d = None -> (forall d', chain (outer f d') fs) -> chain d (f :: fs).

  Lemma chain_ctrl d up : chain d up -> forall c', get_ctrl d up = Ok c' -> c' = c.
  Proof.
    unfold get_ctrl. change (KStr $"MAT") with kMAT. change (KStr $"MF") with kMF. change (KStr $"MT") with kMT.
    induction 1 as [d up A B C|d up e A|d f fs A B IH]; intros c' H.
    - destruct up; cbn [ctrl_dic] in H; change (KStr $"MAT") with kMAT in H; rewrite A in H; cbv iota in H; rewrite A, B, C in H; cbn in H; injection H as <-; destruct c; reflexivity.
    - destruct up; cbn [ctrl_dic] in H; change (KStr $"MAT") with kMAT in H; rewrite A in H; cbv iota in H; rewrite A in H;
        destruct (dget kMF d); try discriminate H; destruct (dget kMT d); discriminate H.
    - cbn [ctrl_dic] in H. change (KStr $"MAT") with kMAT in H. rewrite A in H. exact (IH d _ H).
  Qed.

  Lemma chain_wform base abbrs up : wok base abbrs -> chain base up -> chain (wform base abbrs) up.
  Proof.
    intros K H. inversion H as [d u A B C|d u e A|d f fs A B]; subst.
    - apply ch_top; unfold wform; apply dget_app_some; assumption.
    - apply ch_abbr with e. unfold wform. apply dget_app_some. assumption.
    - destruct (dget kMAT (wform base abbrs)) as [v|] eqn:E; [|apply ch_up; assumption].
      unfold wform in E. rewrite dget_app_none in E by exact A. cbn [dget] in E.
      rewrite key_eqb_neq in E by discriminate. rewrite key_eqb_neq in E by discriminate.
      destruct (dget_abbrs_any _ _ _ E) as [e ->]. apply ch_abbr with e. unfold wform. rewrite dget_app_none by exact A. cbn [dget].
      rewrite key_eqb_neq by discriminate. rewrite key_eqb_neq by discriminate. exact E.
  Qed.

  Lemma path_not_num x ks d n inner : dget (KStr x) d = Some (VNum n) -> path_get (KStr x :: ks) (VDict d) = Some (VDict inner) -> False.
  Proof. intros H P. cbn [path_get] in P. rewrite H in P. destruct ks; discriminate. Qed.
  Lemma path_not_expr x ks d n inner : dget (KStr x) d = Some (VExpr n) -> path_get (KStr x :: ks) (VDict d) = Some (VDict inner) -> False.
  Proof. intros H P. cbn [path_get] in P. rewrite H in P. destruct ks; discriminate. Qed.

  Lemma chain_outer d up x idcs inner : chain d up -> path_get (KStr x :: map KInt idcs) (VDict d) = Some (VDict inner) ->
    forall d', chain (outer {| fr_dic := d; fr_name := x; fr_idx := idcs |} d') up.
  Proof.
    intros H P d'. inversion H as [d0 u A B C|d0 u e A|d0 f fs A B]; subst.
    - apply ch_top; rewrite outer_other; try assumption; cbn [fr_name]; intros Q; injection Q as Q; subst x;
        [exact (path_not_num _ _ _ _ _ A P)|exact (path_not_num _ _ _ _ _ B P)|exact (path_not_num _ _ _ _ _ C P)].
    - apply ch_abbr with e. rewrite outer_other; [assumption|]. cbn [fr_name]. intros Q. injection Q as Q. subst x. exact (path_not_expr _ _ _ _ _ A P).
    - apply ch_up; [|assumption]. rewrite outer_other; [assumption|]. cbn [fr_name]. intros Q. injection Q as Q. subst x.
      cbn [path_get] in P. change (dget _ d) with (dget kMAT d) in P. rewrite A in P. discriminate.
  Qed.

  Lemma path_no_mat ks : forall d v, one_mat d -> ks <> [] -> path_get ks (VDict d) = Some v -> no_mat v.
  Proof.
    induction ks as [|k ks IH]; intros d v C N H; [contradiction|]. cbn [path_get] in H. destruct (dget k d) as [o|] eqn:G; [|discriminate].
    destruct ks as [|k2 ks]; [injection H as <-; exact (C _ _ G)|].
    pose proof (C _ _ G) as CO. destruct o; try discriminate. eapply IH; [|discriminate|exact H].
    intros k' w Gw. inversion CO as [d' A B|w' A]; subst; [eauto|]. destruct (A _ eq_refl).
  Qed.

  Record inv (base : dict) (abbrs : list (str * expr)) (s : pstate) : Prop := {
    iv_wok : wok base abbrs; iv_dic : ps_dic s = wform base abbrs; iv_one : one_mat base; iv_chain : chain base (ps_up s)
  }.
  Lemma wform_one base abbrs : wok base abbrs -> one_mat base -> one_mat (wform base abbrs).
  Proof.
    intros K O k v H. unfold wform in H. destruct (dget k base) as [w|] eqn:E.
    - rewrite (dget_app_some _ _ _ _ E) in H. injection H as <-. exact (O _ _ E).
    - rewrite dget_app_none in H by exact E. cbn [dget] in H. destruct (key_eqb k kA); [injection H as <-; apply nm_other; discriminate|].
      destruct (key_eqb k kS). { injection H as <-. apply nm_dict; [reflexivity|discriminate]. }
      apply dget_abbrs_any in H as [e ->]. apply nm_other. discriminate.
  Qed.

  Definition good (s s' : pstate) : Prop := forall base abbrs, inv base abbrs s ->
    exists abbrs' new, inv base abbrs' s' /\ ps_lines s' = ps_lines s ++ new /\ Forall (ends c) new.
  Lemma good_preorder : preorder good.
  Proof.
    split.
    - intros s base abbrs H. exists abbrs, []. rewrite app_nil_r. auto.
    - intros x y z H1 H2 base abbrs H. destruct (H1 _ _ H) as (a1 & n1 & J1 & L1 & F1). destruct (H2 _ _ J1) as (a2 & n2 & J2 & L2 & F2).
      exists a2, (n1 ++ n2). split; [exact J2|]. split; [rewrite L2, L1, app_assoc; reflexivity|]. apply Forall_app. auto.
  Qed.

  (** nothing that matters changes *)
  Definition calm (s s' : pstate) : Prop := ps_dic s' = ps_dic s /\ ps_up s' = ps_up s /\ ps_lines s' = ps_lines s.
  Lemma calm_preorder : preorder calm.
  Proof. split; unfold calm; intuition congruence. Qed.
  Lemma calm_good s s' : calm s s' -> good s s'.
  Proof.
    intros (A & B & C) base abbrs [K D O H]. exists abbrs, []. rewrite app_nil_r. split; [|auto]. split; try assumption; [congruence|].
    rewrite B. exact H.
  Qed.

  Variable en : env.
  Hypothesis W : e_write en = true.

  Ltac kstep :=
    match goal with
    | |- keeps _ (mbind _ _) => apply keeps_bind; [exact calm_preorder | |]
    | |- keeps _ (ret _) => apply keeps_ret; exact calm_preorder
    | |- keeps _ (fail _) => apply keeps_fail
    | |- keeps _ (lift _) => apply keeps_lift; exact calm_preorder
    | |- keeps _ (map_write _ _) => apply keeps_read; exact calm_preorder
    | |- keeps _ (eval_ctl _ _) => apply keeps_read; exact calm_preorder
    | |- keeps _ (check_spec_write _) => apply keeps_read; exact calm_preorder
    | |- keeps _ (fun s => (_, s)) => apply keeps_read; exact calm_preorder
    | |- keeps _ (modify (fun s => set_loops _ s)) => apply keeps_modify; intros; repeat split; reflexivity
    | |- keeps _ (let '(_, _) := ?x in _) => destruct x
    | |- keeps _ (if ?b then _ else _) => destruct b
    | |- keeps _ (match ?l with [] => _ | _ :: _ => _ end) => destruct l
    | |- forall _, _ => intros ?
    end.

  Lemma calm_list : (forall i ls, keeps calm (list_item en i ls)) /\ (forall b ls, keeps calm (list_body en b ls)).
  Proof.
    apply lrecipe_mut.
    - intros e [vals pos]. cbn [list_item]. unfold list_expr. rewrite W. repeat kstep.
    - intros [vals pos]. cbn [list_item]. unfold list_pad. repeat kstep.
    - intros v a b body IH ls. rewrite list_loop_eq. unfold cycle_list_loop. repeat kstep.
      intros s x s' H. destruct (lget v (ps_loops s)); [discriminate|].
      match type of H with ?m s = _ => assert (Q : keeps calm m) end; [|exact (Q _ _ _ H)].
      clear s x s' H. repeat kstep. clear -IH. revert ls. induction (zrange _ _) as [|i r IHr]; intros ls; cbn [iterate_l]; repeat kstep; auto.
    - intros ls. apply keeps_ret. exact calm_preorder.
    - intros i IHi b IHb ls. rewrite list_cons_eq. repeat kstep; auto.
  Qed.

  Lemma calm_keeps {A} (m : M A) : keeps calm m -> keeps good m.
  Proof. intros H s a s' E. apply calm_good. exact (H _ _ _ E). Qed.

  (** opening a section *)
  Lemma section_inv u s s1 base abbrs : inv base abbrs s -> open_section en u s = (Ok tt, s1) ->
    one_mat (ps_dic s1) /\ chain (ps_dic s1) (ps_up s1) /\ ps_lines s1 = ps_lines s /\ exists f, ps_up s1 = f :: ps_up s.
  Proof.
    intros [K D O C] H. unfold open_section in H. destruct u as [x ix]. rewrite W in H. cbn [negb] in H.
    destruct (mapM (get_indexvalue (ps_loops s)) ix) as [idcs|]; cbn [bind] in H; [|discriminate].
    destruct (open_path false x (KStr x :: map KInt idcs) (VDict (ps_dic s))) as [[inner cur]|] eqn:E; cbn [bind] in H; [|discriminate].
    destruct (open_path_same _ _ _ _ _ E) as (-> & P & Q). injection H as <-. cbn [set_up ps_dic ps_up ps_lines].
    assert (NM : no_mat (VDict inner)).
    { apply (path_no_mat (KStr x :: map KInt idcs) (ps_dic s)); [|discriminate|exact P]. rewrite D. apply wform_one; assumption. }
    inversion NM as [d0 A B|d0 A]; subst; [|destruct (A _ eq_refl)]. change (KStr $"__up") with kU. split.
    - intros k v G. destruct (key_dec k kU) as [->|N]; [rewrite dget_dset_same in G; injection G as <-; apply nm_other; discriminate|].
      rewrite dget_dset_other in G by exact N. eauto.
    - split; [|split; [reflexivity|eauto]]. apply ch_up.
      + rewrite dget_dset_other by discriminate. exact A.
      + intros d'. apply chain_outer with inner; [rewrite D; apply chain_wform; assumption|exact P].
  Qed.

  Lemma good_in_section {A} name (m : M A) : keeps calm m -> keeps good (in_section en name m).
  Proof.
    intros Hm s a s' H base abbrs J. unfold in_section in H. destruct name as [u|]; [|exact (calm_good _ _ (Hm _ _ _ H) _ _ J)].
    apply mbind_ok in H as ([] & s1 & H1 & H). apply mbind_ok in H as (b & s2 & H2 & H). apply mbind_ok in H as ([] & s3 & H3 & H).
    injection H as _ <-. destruct (section_restored en u s s1 _ _ W (iv_wok _ _ _ J) (iv_dic _ _ _ J) H1) as (inner & _ & _ & _ & R).
    destruct (section_inv _ _ _ _ _ J H1) as (_ & _ & L1 & f & U1). destruct (Hm _ _ _ H2) as (E1 & E2 & E3).
    revert base abbrs J. apply (calm_good s s3). split; [exact (R _ _ E2 E1 H3)|].
    unfold close_section in H3. rewrite E2, U1 in H3. injection H3 as <-. cbn [set_up ps_up ps_lines]. split; [reflexivity|congruence].
  Qed.

  Lemma good_write r : (forall s ls, the_ctrl s = Ok c \/ (forall c', the_ctrl s <> Ok c') -> r s = Ok ls -> Forall (ends c) ls) -> keeps good (write_with r).
  Proof.
    intros Hr s a s' H base abbrs J. unfold write_with in H. destruct (r s) as [ls|] eqn:E; [|discriminate]. injection H as _ <-.
    exists abbrs, ls. split; [|split; [reflexivity|]].
    - destruct J as [K D O C]. split; assumption.
    - apply (Hr _ _) in E; [exact E|]. unfold the_ctrl. destruct (get_ctrl (ps_dic s) (ps_up s)) as [c'|] eqn:G; [left|right; discriminate].
      f_equal. apply (chain_ctrl (ps_dic s) (ps_up s)); [|exact G]. rewrite (iv_dic _ _ _ J). apply chain_wform; [exact (iv_wok _ _ _ J)|exact (iv_chain _ _ _ J)].
  Qed.
  Lemma good_write_ctrl (r : pstate -> ctrl -> result (list str)) :
    (forall s ls, r s c = Ok ls -> Forall (ends c) ls) -> keeps good (write_with (fun s => do c' <- the_ctrl s; r s c')).
  Proof.
    intros Hr. apply good_write. intros s ls [-> |N] H; [exact (Hr _ _ H)|]. destruct (the_ctrl s) as [c'|] eqn:E; [destruct (N _ eq_refl)|discriminate].
  Qed.

  Lemma good_proceed b : keeps good (should_proceed b).
  Proof.
    intros s a s' H. apply calm_good. unfold should_proceed in H. destruct (ps_look s); [|injection H as _ <-; repeat split].
    destruct (z =? 0); injection H as _ <-; [repeat split|]. destruct b; repeat split.
  Qed.
  Lemma good_guarded b m : keeps good m -> keeps good (guarded b m).
  Proof.
    intros H. unfold guarded. apply keeps_bind; [exact good_preorder|apply good_proceed|]. intros [|]; [exact H|apply keeps_ret; exact good_preorder].
  Qed.

  Ltac gb := apply keeps_bind; [exact good_preorder| |].
  Ltac gc := gb; [apply calm_keeps; repeat kstep|].

  Theorem exec_signed :
    (forall i, no_send_instr i = true -> keeps good (exec en i)) /\
    (forall b, no_send b = true -> keeps good (exec_block en b)) /\
    (forall b, no_send_branch b = true -> keeps good (exec_branch en b)) /\
    (forall r, no_send_branches r = true -> forall els, keeps good els -> keeps good (exec_branches en r els)).
  Proof.
    apply recipe_mut; intros;
      rewrite ?exec_section_eq, ?exec_for_eq, ?exec_if_eq, ?exec_cons_eq, ?exec_nil_eq, ?exec_branch_eq, ?exec_rcons_eq.
    - apply good_guarded. unfold do_cont. rewrite W. gc. intros _. gc. intros vs. apply good_write_ctrl. intros s ls H1. dbind H1. exact (cont_ends _ _ _ _ H1).
    - apply good_guarded. unfold do_text. rewrite W. gc. intros _. gc. intros vs. apply good_write_ctrl. intros s ls H1. injection H1 as <-. apply ends_one.
    - apply good_guarded. unfold do_dir. rewrite W. gc. intros _. gc. intros vs. apply good_write_ctrl. intros s ls H1. dbind H1.
      destruct a as [|a1 [|a2 [|a3 [|a4 [|]]]]]; try discriminate. injection H1 as <-. unfold write_dir. rewrite !app_assoc. apply ends_one.
    - apply good_guarded. unfold do_intg. rewrite W. gc. intros _. gc. intros vs.
      intros s a s' E base abbrs J. apply mbind_ok in E as (c' & s1 & E1 & E). injection E1 as E1 <-.
      assert (c' = c) as ->.
      { apply (chain_ctrl (ps_dic s) (ps_up s)); [|exact E1]. rewrite (iv_dic _ _ _ J). apply chain_wform; [exact (iv_wok _ _ _ J)|exact (iv_chain _ _ _ J)]. }
      revert s a s' E1 E base abbrs J. match goal with |- forall s a s', _ -> ?m s = _ -> _ => cut (keeps good m) end.
      { intros Q s a s' _ E. exact (Q _ _ _ E). }
      gc. intros n. apply good_write. intros s ls _ H1. dbind H1. destruct vs as [|v1 [|v2 [|v3 [|]]]]; try discriminate.
      dbind H1. dbind H1. dbind H1. injection H1 as <-. apply ends_one.
    - apply good_guarded. unfold do_tab1. rewrite W. gc. intros _. gc. intros vs. gb; [apply good_in_section; repeat kstep|]. intros tv.
      apply good_write_ctrl. intros s ls H1. destruct tv as [|n [|i [|xs [|ys [|]]]]]; try discriminate.
      do 5 dbind H1. exact (tab1_ends _ _ _ _ _ _ _ _ H1).
    - apply good_guarded. unfold do_tab2. rewrite W. gc. intros _. gc. intros vs. gb; [apply good_in_section; repeat kstep|]. intros tv.
      apply good_write_ctrl. intros s ls H1. destruct tv as [|n [|i [|]]]; try discriminate. destruct vs as [|v1 [|v2 [|v3 [|v4 [|v5 [|]]]]]]; try discriminate.
      do 3 dbind H1. exact (tab2_ends _ _ _ _ _ _ H1).
    - apply good_guarded. unfold do_list. rewrite W. gc. intros _. gc. intros vs. gb; [apply good_in_section; apply calm_list|]. intros [tv ?].
      apply good_write_ctrl. intros s ls H1. dbind H1. exact (list_ends _ _ _ _ _ H1).
    - discriminate.
    - apply good_guarded. intros s a s' E. unfold do_stop in E. rewrite W in E. discriminate E.
    - apply good_guarded. destruct (negb _); [apply keeps_fail|].
      intros s a s' E base abbrs J.
      apply mbind_ok in E as ([] & s1 & E1 & E). apply mbind_ok in E as ([] & s2 & E2 & E). injection E2 as <-.
      apply mbind_ok in E as ([] & s3 & E3 & E). apply mbind_ok in E as ([] & s4 & E4 & E).
      destruct (section_restored en head s s1 _ _ W (iv_wok _ _ _ J) (iv_dic _ _ _ J) E1) as (inner & C & D1 & NU & R).
      destruct (section_inv _ _ _ _ _ J E1) as (O1 & C1 & L1 & fr & U1).
      assert (IC : (forall k, working_key k -> dget k inner = None) /\ (forall k v, dget k inner = Some v -> clean v)).
      { inversion C as [d A B|d A]; subst; [split; assumption|destruct (A _ eq_refl)]. }
      destruct IC as [IC1 IC2].
      assert (NA : dget kA (ps_dic s1) = None).
      { rewrite D1, dget_dset_other by discriminate. apply IC1. right. left. reflexivity. }
      assert (NS : dget kS (ps_dic s1) = None).
      { rewrite D1, dget_dset_other by discriminate. apply IC1. right. right. reflexivity. }
      assert (KI : wok (ps_dic s1) []).
      { split; try assumption; [|contradiction|constructor]. intros k v G. rewrite D1 in G.
        destruct (key_dec k kU) as [->|N]; [rewrite dget_dset_same in G; injection G as <-; apply cl_other; discriminate|].
        rewrite dget_dset_other in G by exact N. eauto. }
      assert (DI : ps_dic (set_dic (init_working (ps_dic s1)) s1) = wform (ps_dic s1) []).
      { cbn [set_dic ps_dic]. unfold init_working, wform. change (KStr $"__abbrevs") with kA. change (KStr $"__startidcs") with kS.
        rewrite (dset_new kA) by exact NA. rewrite dset_new; [rewrite <- app_assoc; reflexivity|].
        rewrite dget_app_none by exact NS. reflexivity. }
      assert (JI : inv (ps_dic s1) [] (set_dic (init_working (ps_dic s1)) s1)) by (split; assumption).
      cbn [no_send_instr] in H0. destruct (H H0 _ _ _ E3 _ _ JI) as (ab' & new & J' & L3 & F3).
      pose proof (remove_wok _ _ _ _ (iv_wok _ _ _ J') (iv_dic _ _ _ J') E4) as D4.
      assert (U4 : ps_up s4 = ps_up s1 /\ ps_lines s4 = ps_lines s3).
      { pose proof (fk_up _ _ _ (proj2 (exec_frame en) _ _ _ _ E3)) as U3. cbn [set_dic ps_up] in U3. rewrite <- U3.
        unfold remove_working in E4. destruct (dget _ (ps_dic s3)) as [v|]; [|discriminate]. destruct v; try discriminate.
        destruct (del_names _ _); [|discriminate]. injection E4 as <-. split; reflexivity. }
      destruct U4 as [U4 L4]. destruct a. pose proof (R _ _ U4 D4 E) as D5.
      unfold close_section in E. rewrite U4, U1 in E. injection E as <-. cbn [set_up ps_up ps_lines ps_dic] in *.
      exists abbrs, new. split; [|split; [rewrite L4, L3; cbn [set_dic ps_lines]; congruence|exact F3]].
      destruct J as [K D O CH]. split; try assumption. cbn [set_up ps_dic]. congruence.
    - apply good_guarded. unfold cycle_for_loop. gc. intros va. gc. intros vb. gc. intros za. gc. intros zb.
      cbn [no_send_instr] in H0. specialize (H H0).
      intros s x s' E. destruct (lget v (ps_loops s)); [discriminate|].
      apply mbind_ok in E as ([] & s1 & E1 & E).
      assert (K1 : good s s1).
      { clear E. revert s E1. induction (zrange za zb) as [|i r IH]; intros s E1; cbn [iterate] in E1.
        - injection E1 as <-. apply good_preorder.
        - apply mbind_ok in E1 as ([] & s2 & E2 & E1). injection E2 as <-. apply mbind_ok in E1 as ([] & s2 & E2 & E1).
          apply (po_trans _ good_preorder) with s2; [|apply IH; exact E1].
          apply (po_trans _ good_preorder) with (set_loops ((v, i) :: ldel v (ps_loops s)) s); [apply calm_good; repeat split|].
          exact (H _ _ _ E2). }
      apply (po_trans _ good_preorder) with s1; [exact K1|]. apply calm_good. destruct (za <=? zb); injection E as _ <-; repeat split.
    - cbn [no_send_instr] in H2. apply andb_prop in H2 as [H2 Q3]. apply andb_prop in H2 as [Q1 Q2].
      apply good_guarded. intros s a s' E. apply mbind_ok in E as (t & s1 & E1 & E).
      apply test_branch_state in E1. subst s1. destruct t; [exact (H Q1 _ _ _ E)|]. exact (H0 Q2 _ (H1 Q3) _ _ _ E).
    - apply good_guarded. intros s a s' E base abbrs J. destruct a. destruct (introduce_wok _ _ _ _ _ _ (iv_wok _ _ _ J) (iv_dic _ _ _ J) E) as (ab' & K' & D').
      exists ab', []. rewrite app_nil_r.
      assert (Q : ps_up s' = ps_up s /\ ps_lines s' = ps_lines s).
      { unfold introduce in E. destruct (dget _ (ps_dic s)); [destruct (existsb _ _); [|discriminate]|]; injection E as <-; split; reflexivity. }
      destruct Q as [Q1 Q2]. split; [|auto]. split; try assumption; [exact (iv_one _ _ _ J)|rewrite Q1; exact (iv_chain _ _ _ J)].
    - apply keeps_ret. exact good_preorder.
    - cbn [no_send] in H1. apply andb_prop in H1 as [Q1 Q2]. gb; [apply good_proceed|]. intros [|]; [|apply keeps_ret; exact good_preorder].
      gb; [exact (H Q1)|]. intros _. exact (H0 Q2).
    - exact (H H0).
    - rewrite exec_rnil_eq. assumption.
    - cbn [no_send_branches] in H1. apply andb_prop in H1 as [Q1 Q2].
      intros s a s' E. apply mbind_ok in E as (t & s1 & E1 & E).
      apply test_branch_state in E1. subst s1. destruct t; [exact (H Q1 _ _ _ E)|]. exact (H0 Q2 _ H2 _ _ _ E).
  Qed.
End Signed.
