(** Control numbers of the records read, and the values of LIST records. *)
From Coq Require Import Ascii String ZArith QArith Bool Lia List.
From Coq Require Import Floats.SpecFloat.
From Verif Require Import PyBase PyFloat ModelFortran ModelRecords ModelTape ModelNum ModelRecipe ModelInterp ModelParser ModelRecipes ModelRegistry.
From Verif Require Import SpecFields SpecTape SpecInterp SpecControl ProofPyBase ProofFields ProofTape ProofInterp ProofInterpFrame ProofInterpCtl ProofInterpSec.
Import ListNotations.
Open Scope Z_scope.

(** ** Control numbers *)

Lemma check_spec_meets cs c : check_spec cs (vint (MAT c)) (vint (MF c)) (vint (MT c)) = Ok tt ->
  meets cs (MAT c) (MF c) (MT c).
Proof.
  unfold check_spec. destruct (_ && _) eqn:E; [|discriminate]. intros _.
  rewrite !andb_true_iff in E. destruct E as [[E1 E2] E3].
  assert (G : forall sp z, spec_ok sp (vint z) = true -> forall y, sp = Some y -> z = y).
  { intros sp z H y ->. cbn [spec_ok] in H. unfold val_eqZ, vint in H.
    unfold val_eqb, num_eqb, num_cmp in H. cbn [sf_of num_num num_den] in H.
    rewrite !Z.mul_1_r in H. destruct (z ?= y) eqn:C; try discriminate H. apply Z.compare_eq. exact C. }
  split; [|split]; intros z Q; eapply G; eauto.
Qed.

Section Placed.
  Variable en : env.
  Variable all : list ctrlspec.
  Hypothesis W : e_write en = false.

  Notation good s := (placed (r_width (e_ro en)) all (ps_lines s)).

  Definition checked (s s' : pstate) : Prop :=
    ps_lines s' = ps_lines s /\
    exists new, ps_log s' = ps_log s ++ new /\ forall a b, In (a, b) new -> good s a.

  Lemma checked_preorder : preorder checked.
  Proof.
    split.
    - intros s. split; [reflexivity|]. exists []. split; [symmetry; apply app_nil_r | intros ? ? []].
    - intros a b c (l1 & n1 & e1 & g1) (l2 & n2 & e2 & g2). split; [congruence|].
      exists (n1 ++ n2). split; [rewrite e2, e1, app_assoc; reflexivity|].
      intros x y H. apply in_app_iff in H. destruct H as [H|H]; [exact (g1 _ _ H)|].
      rewrite <- l1. exact (g2 _ _ H).
  Qed.
  Lemma checked_same s s' : ps_lines s' = ps_lines s -> ps_log s' = ps_log s -> checked s s'.
  Proof.
    intros L E. split; [exact L|]. exists []. split; [rewrite E; symmetry; apply app_nil_r | intros ? ? []].
  Qed.

  Lemma rest_ok : preorder (same_rest checked).
  Proof. apply rest_preorder; [exact checked_preorder | intros; apply checked_same; assumption]. Qed.
  Definition R : pstate -> pstate -> Prop := outside checked.
  Lemma P : preorder R.
  Proof. exact (both_preorder _ rest_ok). Qed.
  Lemma R_of s s' : ps_loops s' = ps_loops s -> ps_up s' = ps_up s -> ps_opts s' = ps_opts s ->
    (ps_look s = None -> ps_look s' = None) -> checked s s' -> R s s'.
  Proof. intros A B C D E. split; [exact A|]. split; [exact B|]. split; [exact C|]. split; [exact D | exact E]. Qed.
  Lemma H_dic d s : R s (set_dic d s).
  Proof. apply R_of; try reflexivity; auto. apply checked_same; reflexivity. Qed.
  Lemma H_look n k s : ps_look s = Some n -> R s (set_look k s).
  Proof. intros E. apply R_of; try reflexivity; [congruence | apply checked_same; reflexivity]. Qed.
  Lemma H_sec : forall A u (m : M A), keeps R m ->
    keeps R (run _ <- open_section en u; run a <- m; run _ <- close_section; ret a).
  Proof.
    intros A u m Hm. apply outside_sec; [exact checked_preorder | | exact Hm].
    intros; apply checked_same; assumption.
  Qed.
  Lemma loops_rest l s : same_rest checked s (set_loops l s).
  Proof. repeat split; auto. exists []. split; [symmetry; apply app_nil_r | intros ? ? []]. Qed.
  Lemma H_for v a b body : keeps R body -> keeps R (cycle_for_loop en v a b body).
  Proof. apply for_both; [exact rest_ok | apply loops_rest]. Qed.
  Lemma H_lfor v a b body : (forall ls, keeps R (body ls)) ->
    forall ls, keeps R (cycle_list_loop en v a b body ls).
  Proof. apply lfor_both; [exact rest_ok | apply loops_rest]. Qed.

  (** a record: it is read, and the control numbers of its first line are compared *)
  Lemma leaf {A} (rd : list str -> nat -> result (A * nat)) (getc : A -> ctrl) cs (k : A -> M unit) :
    In cs all ->
    (forall ls p x p', rd ls p = Ok (x, p') -> exists l, nth_error ls p = Some l /\ read_ctrl (e_ro en) l = Ok (getc x)) ->
    (forall x, keeps R (k x)) ->
    keeps R (run x <- read_with rd; run _ <- check_spec_read cs (getc x); k x).
  Proof.
    intros I Hrd Hk s a s' H. apply mbind_ok in H. destruct H as (x & s1 & H1 & H).
    apply mbind_ok in H. destruct H as ([] & s2 & H2 & H).
    unfold check_spec_read, lift in H2. injection H2 as H2 <-. apply check_spec_meets in H2.
    unfold read_with in H1.
    destruct (skip_blank_lines _ _) as [o|e] eqn:E; [|discriminate H1].
    destruct (rd _ _) as [[y o']|e] eqn:E2; [|discriminate H1]. injection H1 as -> <-.
    apply (po_trans _ P) with (advance o o' s); [|exact (Hk _ _ _ _ H)].
    apply R_of; try reflexivity; auto. split; [reflexivity|]. exists [(o, o')]. split; [reflexivity|].
    intros u v [Q|[]]. injection Q as <- <-. apply Hrd in E2. destruct E2 as (l & N & C).
    destruct (getc x) as [mat mf mt] eqn:G. exists l, mat, mf, mt. split; [exact N|].
    split; [apply carries_iff; exact C|]. right. exists cs. split; [exact I | exact H2].
  Qed.

  Lemma get_line_nth ls p l : get_line ls p = Ok l -> nth_error ls p = Some l.
  Proof. unfold get_line. destruct (nth_error ls p); [|discriminate]. congruence. Qed.

  Lemma cont_ctrl ls p x p' : read_cont (e_ro en) ls p = Ok (x, p') ->
    exists l, nth_error ls p = Some l /\ read_ctrl (e_ro en) l = Ok (snd x).
  Proof.
    unfold read_cont. intros H. binds H. injection H as <- _. cbn [snd].
    exists x0. split; [apply get_line_nth; assumption | assumption].
  Qed.

  Lemma do_send_R : keeps R (do_send en).
  Proof.
    intros s a s' H. unfold do_send in H. rewrite W in H.
    destruct (skip_blank_lines _ _) as [o|] eqn:E; [|discriminate H].
    destruct (read_send _ _ _) as [[[r c] o']|] eqn:E2; [|discriminate H]. injection H as _ <-.
    apply R_of; try reflexivity; auto. split; [reflexivity|]. exists [(o, o')]. split; [reflexivity|].
    intros u v [Q|[]]. injection Q as <- <-.
    unfold read_send in E2. binds E2. destruct x as [[r0 c0] o0].
    destruct (_ || negb _) eqn:Z; [discriminate E2|]. injection E2 as <- <- <-.
    apply orb_false_iff in Z. destruct Z as [_ Z]. apply negb_false_iff, Z.eqb_eq in Z.
    apply cont_ctrl in E0. destruct E0 as (l & N & C). cbn [snd] in C. destruct c0 as [mat mf mt].
    exists l, mat, mf, mt. split; [exact N|]. split; [apply carries_iff; exact C|]. left. exact Z.
  Qed.

  Ltac kstep :=
    match goal with
    | |- keeps _ (mbind _ _) => apply keeps_bind; [exact P | |]
    | |- keeps _ (ret _) => apply keeps_ret; exact P
    | |- keeps _ (fail _) => apply keeps_fail
    | |- keeps _ (lift _) => apply keeps_lift; exact P
    | |- keeps _ (map_read _ _) => apply (k_map_read en R P H_dic)
    | |- keeps _ (eval_ctl _ _) => apply (k_eval_ctl en R P)
    | |- keeps _ (update_ctrl _) => apply (k_update_ctrl R H_dic)
    | |- keeps _ (text_read _ _ _) => apply (k_text_read R P H_dic)
    | |- keeps _ (in_section _ _ _) => apply (k_in_section en R H_sec)
    | |- keeps _ (if_proceed _ _) => apply (k_if_proceed R P H_look)
    | |- keeps _ (list_body _ _ _) => apply (proj2 (k_list en R P H_dic H_lfor))
    | |- keeps _ (fun s => (_, s)) => apply keeps_read; exact P
    | |- keeps _ (let '(_, _) := ?x in _) => destruct x
    | |- keeps _ (if ?b then _ else _) => destruct b
    | |- forall _, _ => intros ?
    end.

  Lemma p_cont head cs f : In cs all -> keeps R (do_cont en head cs f).
  Proof.
    intros I. unfold do_cont. rewrite W.
    assert (G := leaf (read_cont (e_ro en)) snd cs (fun x =>
      run _ <- map_read en (combine (cont_vals (fst x)) (fields_list f)); if head then update_ctrl (snd x) else ret tt) I cont_ctrl).
    intros s a s' H. refine (G _ s a s' _); [repeat kstep|].
    apply mbind_ok in H. destruct H as ([r c] & s1 & H1 & H). unfold mbind at 1. rewrite H1. exact H.
  Qed.
  Lemma p_text cs f : In cs all -> keeps R (do_text en cs f).
  Proof.
    intros I. unfold do_text. rewrite W.
    assert (G := leaf (read_text (e_ro en)) snd cs (fun x => run _ <- text_read f (fst x) 0; update_ctrl (snd x)) I).
    intros s a s' H. refine (G _ _ s a s' _); [|repeat kstep|].
    - unfold read_text. intros ls p x p' Q. binds Q. injection Q as <- _. cbn [snd].
      exists x0. split; [apply get_line_nth; assumption | assumption].
    - apply mbind_ok in H. destruct H as ([r c] & s1 & H1 & H). unfold mbind at 1. rewrite H1. exact H.
  Qed.
  Lemma p_dir cs es : In cs all -> keeps R (do_dir en cs es).
  Proof.
    intros I. unfold do_dir. rewrite W.
    assert (G := leaf (read_dir (e_ro en)) snd cs (fun x =>
      map_read en (combine [vint (D_L1 (fst x)); vint (D_L2 (fst x)); vint (D_N1 (fst x)); vint (D_N2 (fst x))] es)) I).
    intros s a s' H. refine (G _ _ s a s' _); [|repeat kstep|].
    - unfold read_dir. intros ls p x p' Q. binds Q. injection Q as <- _. cbn [snd].
      exists x0. split; [apply get_line_nth; assumption | assumption].
    - apply mbind_ok in H. destruct H as ([r c] & s1 & H1 & H). unfold mbind at 1. rewrite H1. exact H.
  Qed.
  Lemma p_intg cs ii jj kij nd : In cs all -> keeps R (do_intg en cs ii jj kij nd).
  Proof.
    intros I. unfold do_intg. rewrite W. apply keeps_bind; [exact P | |intros _].
    { intros s a s' H. destruct (skip_blank_lines _ _); [|discriminate H]. injection H as _ <-. apply (po_refl _ P). }
    kstep; [repeat kstep|]. intros v. kstep; [repeat kstep|]. intros n.
    assert (G := leaf (read_intg (e_ro en) n) snd cs (fun x =>
      map_read en (combine [vint (G_II (fst x)); vint (G_JJ (fst x)); VList (map vint (G_KIJ (fst x)))] [ii; jj; kij])) I).
    intros s a s' H. refine (G _ _ s a s' _); [|repeat kstep|].
    - unfold read_intg. intros ls p x p' Q. destruct (_ || _); [discriminate Q|]. binds Q. injection Q as <- _. cbn [snd].
      exists x0. split; [apply get_line_nth; assumption | assumption].
    - apply mbind_ok in H. destruct H as ([r c] & s1 & H1 & H). unfold mbind at 1. rewrite H1. exact H.
  Qed.
  Lemma tab1_ctrl ls p z p' : read_tab1 (e_ro en) ls p = Ok (z, p') ->
    exists l, nth_error ls p = Some l /\ read_ctrl (e_ro en) l = Ok (snd (fst z)).
  Proof.
    unfold read_tab1. intros Q. apply bind_ok in Q. destruct Q as (l & E1 & Q).
    apply bind_ok in Q. destruct Q as ([[r c0] q] & E2 & Q).
    apply bind_ok in Q. destruct Q as ([t q'] & E3 & Q).
    apply bind_ok in Q. destruct Q as (c & E4 & Q). injection Q as <- _. cbn [fst snd].
    exists l. split; [apply get_line_nth; exact E1 | exact E4].
  Qed.
  Lemma p_tab1 cs f x y name : In cs all -> keeps R (do_tab1 en cs f x y name).
  Proof.
    intros I. unfold do_tab1. rewrite W.
    assert (G := leaf (read_tab1 (e_ro en)) (fun z => snd (fst z)) cs (fun z =>
      run _ <- map_read en (combine (cont_vals (fst (fst z))) [f_c1 f; f_c2 f; f_l1 f; f_l2 f]);
      if_proceed tt
        (let '(n, i, xs, ys) := snd z in
         in_section en name
           (map_read en (combine [VList (map vn n); VList (map vn i); VList (map vn xs); VList (map vn ys)]
              (tab_vars ++ [ev x; ev y]))))) I).
    intros s a s' H. refine (G _ _ s a s' _); [|repeat kstep|].
    - exact tab1_ctrl.
    - apply mbind_ok in H. destruct H as ([[r c] t] & s1 & H1 & H). unfold mbind at 1. rewrite H1. exact H.
  Qed.
  Lemma tab2_ctrl ls p z p' : read_tab2 (e_ro en) ls p = Ok (z, p') ->
    exists l, nth_error ls p = Some l /\ read_ctrl (e_ro en) l = Ok (snd (fst z)).
  Proof.
    unfold read_tab2. intros Q. apply bind_ok in Q. destruct Q as (l & E1 & Q).
    apply bind_ok in Q. destruct Q as ([[r c0] q] & E2 & Q).
    apply bind_ok in Q. destruct Q as ([t q'] & E3 & Q).
    apply bind_ok in Q. destruct Q as (c & E4 & Q). injection Q as <- _. cbn [fst snd].
    exists l. split; [apply get_line_nth; exact E1 | exact E4].
  Qed.
  Lemma p_tab2 cs f name : In cs all -> keeps R (do_tab2 en cs f name).
  Proof.
    intros I. unfold do_tab2. rewrite W.
    assert (G := leaf (read_tab2 (e_ro en)) (fun z => snd (fst z)) cs (fun z =>
      run _ <- map_read en (combine [vn (C1 (fst (fst z))); vn (C2 (fst (fst z))); vn (L1 (fst (fst z))); vn (L2 (fst (fst z))); vn (N2 (fst (fst z)))]
          [f_c1 f; f_c2 f; f_l1 f; f_l2 f; f_n2 f]);
      if_proceed tt
        (in_section en name
           (map_read en (combine [VList (map vn (fst (snd z))); VList (map vn (snd (snd z)))] tab_vars)))) I).
    intros s a s' H. refine (G _ _ s a s' _); [|repeat kstep|].
    - exact tab2_ctrl.
    - apply mbind_ok in H. destruct H as ([[r c] t] & s1 & H1 & H). unfold mbind at 1. rewrite H1. exact H.
  Qed.
  Lemma p_list cs f body name : In cs all -> keeps R (do_list en cs f body name).
  Proof.
    intros I. unfold do_list. rewrite W.
    assert (G := leaf (read_list (e_ro en)) (fun z => snd (fst z)) cs (fun z =>
      run _ <- map_read en (combine (cont_vals (fst (fst z))) (fields_list f));
      if_proceed tt
        (run (_, pos) <- in_section en name (list_body en body (snd z, O));
         if Nat.ltb pos (length (snd z)) then fail UnconsumedListElementsError else ret tt)) I).
    intros s a s' H. refine (G _ _ s a s' _); [|repeat kstep|].
    - unfold read_list. intros ls p z p' Q. binds Q. destruct x as [[r c] q].
      apply cont_ctrl in E. destruct E as (l & N & C). exists l. split; [exact N|]. cbn [snd] in C.
      destruct (_ =? 0); [injection Q as <- _; exact C|]. binds Q. destruct x as [t q']. injection Q as <- _. exact C.
    - apply mbind_ok in H. destruct H as ([[r c] t] & s1 & H1 & H). unfold mbind at 1. rewrite H1. exact H.
  Qed.

  Theorem exec_placed :
    (forall i, incl (specs i) all -> keeps R (exec en i)) /\
    (forall b, incl (specs_block b) all -> keeps R (exec_block en b)) /\
    (forall b, incl (specs_branch b) all -> keeps R (exec_branch en b)) /\
    (forall r, incl (specs_branches r) all -> forall els, keeps R els -> keeps R (exec_branches en r els)).
  Proof.
    assert (G : forall b m, keeps R m -> keeps R (guarded b m)) by (apply (k_guarded R P H_look)).
    assert (H1 : forall cs, incl [cs] all -> In cs all) by (intros cs H; apply H; left; reflexivity).
    apply recipe_mut; intros;
      rewrite ?exec_section_eq, ?exec_for_eq, ?exec_if_eq, ?exec_cons_eq, ?exec_nil_eq, ?exec_branch_eq,
        ?exec_rcons_eq.
    - apply G, p_cont, H1, H.
    - apply G, p_text, H1, H.
    - apply G, p_dir, H1, H.
    - apply G, p_intg, H1, H.
    - apply G, p_tab1, H1, H.
    - apply G, p_tab2, H1, H.
    - apply G, p_list, H1, H.
    - apply G, do_send_R.
    - apply G. intros s a s' E. unfold do_stop in E. rewrite W in E. destruct (get_line _ _); discriminate E.
    - apply G. destruct (negb _); [apply keeps_fail|].
      intros s a s' E. apply (H_sec unit head (run _ <- modify (fun s => set_dic (init_working (ps_dic s)) s);
        run _ <- exec_block en body; remove_working)) with (a := tt).
      + kstep; [apply keeps_modify; intros; apply H_dic | intros _]. kstep; [exact (H H0) | intros _].
        apply (k_remove_working R H_dic).
      + apply mbind_ok in E. destruct E as ([] & s1 & E1 & E).
        apply mbind_ok in E. destruct E as ([] & s2 & E2 & E).
        apply mbind_ok in E. destruct E as ([] & s3 & E3 & E).
        apply mbind_ok in E. destruct E as ([] & s4 & E4 & E).
        unfold mbind. rewrite E1, E2, E3, E4, E. destruct a. reflexivity.
    - apply G, H_for. exact (H H0).
    - cbn [specs] in H3. apply incl_app_inv in H3. destruct H3 as [I1 I2]. apply incl_app_inv in I2. destruct I2 as [I2 I3].
      apply G. intros s a s' E. apply mbind_ok in E. destruct E as (t & s1 & E1 & E).
      apply test_branch_state in E1. subst s1.
      destruct t; [exact (H I1 _ _ _ E)|]. exact (H0 I2 _ (H2 I3) _ _ _ E).
    - apply G, (k_introduce R H_dic).
    - apply keeps_ret. exact P.
    - cbn [specs_block] in H2. apply incl_app_inv in H2. destruct H2 as [I1 I2].
      apply keeps_bind; [exact P | apply (k_should_proceed R P H_look) |]. intros [|]; [|apply keeps_ret; exact P].
      apply keeps_bind; [exact P | exact (H I1) |]. intros _. exact (H0 I2).
    - exact (H H0).
    - rewrite exec_rnil_eq. exact H0.
    - cbn [specs_branches] in H2. apply incl_app_inv in H2. destruct H2 as [I1 I2].
      intros s a s' E. apply mbind_ok in E. destruct E as (t & s1 & E1 & E).
      apply test_branch_state in E1. subst s1.
      destruct t; [exact (H I1 _ _ _ E)|]. exact (H0 I2 _ H3 _ _ _ E).
  Qed.
End Placed.

Theorem section_placed en recipe o lines s' : e_write en = false ->
  run_section en recipe (reset_state o lines []) = (Ok tt, s') ->
  forall a b, In (a, b) (ps_log s') -> placed (r_width (e_ro en)) (specs_block recipe) lines a.
Proof.
  intros W H a b I. unfold run_section in H.
  apply mbind_ok in H. destruct H as ([] & s1 & H1 & H). injection H1 as <-.
  apply mbind_ok in H. destruct H as ([] & s2 & H2 & H).
  apply (proj1 (proj2 (exec_placed en (specs_block recipe) W)) recipe (incl_refl _)) in H2.
  destruct H2 as (_ & _ & _ & _ & L & new & E & Gd). cbn in E, L, Gd.
  assert (Q : ps_log s' = ps_log s2).
  { unfold remove_working in H. destruct (dget _ _) as [v|]; [|discriminate H]. destruct v; try discriminate H.
    destruct (del_names _ _); [|discriminate H]. injection H as <-. reflexivity. }
  rewrite Q, E in I. exact (Gd _ _ I).
Qed.

(** ** Values of LIST records *)

Lemma int_of_val_is bad v z : int_of_val bad v = Ok z -> exists n, v = VNum n /\ is_int n z.
Proof.
  unfold int_of_val. intros H. apply bind_ok in H. destruct H as (n & E & H).
  assert (v = VNum n) as -> by (destruct v; cbn [as_num] in E; congruence).
  exists n. split; [reflexivity|].
  assert (F : forall f, (if sf_integral f then Ok (Z.quot (sf_num f) (sf_den f)) else Err bad) = Ok z ->
    sf_num f = z * sf_den f).
  { intros f Q. unfold sf_integral in Q. destruct (_ =? _) eqn:C; [|discriminate Q]. injection Q as <-.
    apply Z.eqb_eq in C. lia. }
  destruct n as [x|f|f u]; cbn [is_int]; [congruence | |];
    (destruct f as [s|s| |s m e]; try discriminate H; apply F in H; [|exact H];
     cbn [sf_num sf_den] in H; lia).
Qed.

Lemma TP : preorder (fun _ _ : pstate => True).
Proof. split; auto. Qed.
Lemma TL l s : (fun _ _ : pstate => True) s (set_loops l s).
Proof. exact I. Qed.
Lemma TD d s : both (fun _ _ => True) s (set_dic d s).
Proof. split; reflexivity || exact I. Qed.

Section Takes.
  Variable en : env.
  Hypothesis W : e_write en = false.
  Variable vals : list num.
  Let d : num := NInt 0.
  Definition at_ (i : nat) : num := nth i vals d.
  Definition seg (p q : nat) : list num := map at_ (seq p (q - p)).
  Definition fine (p : nat) : Prop :=
    (p <= length vals \/ (p mod 6 = 0 /\ p < length vals + 6))%nat.

  Lemma seg_len p q : length (seg p q) = (q - p)%nat.
  Proof. unfold seg. rewrite map_length, seq_length. reflexivity. Qed.
  Lemma seg_app p q r : (p <= q)%nat -> (q <= r)%nat -> seg p r = seg p q ++ seg q r.
  Proof.
    intros H1 H2. unfold seg. rewrite <- map_app. f_equal.
    replace (r - p)%nat with ((q - p) + (r - q))%nat by lia. rewrite seq_app. f_equal. f_equal. lia.
  Qed.

  Definition item_ok (i : litem) : Prop := forall p s ls s', list_item en i (vals, p) s = (Ok ls, s') ->
    fst ls = vals /\ (p <= snd ls)%nat /\ (fine p -> fine (snd ls)) /\ takes_item en i p (seg p (snd ls)) s s'.
  Definition body_ok (b : lbody) : Prop := forall p s ls s', list_body en b (vals, p) s = (Ok ls, s') ->
    fst ls = vals /\ (p <= snd ls)%nat /\ (fine p -> fine (snd ls)) /\ takes en b p (seg p (snd ls)) s s'.

  Lemma loop_ok v body b : body_ok body -> forall n a p s ls s', n = Z.to_nat (b + 1 - a) ->
    iterate_l v (zrange a b) (list_body en body) (vals, p) s = (Ok ls, s') ->
    fst ls = vals /\ (p <= snd ls)%nat /\ (fine p -> fine (snd ls)) /\ takes_loop en v body b a p (seg p (snd ls)) s s'.
  Proof.
    intros Hb. induction n as [|n IH]; intros a p s ls s' N H.
    - rewrite zrange_empty in H by lia. injection H as <- <-. cbn [fst snd].
      split; [reflexivity|]. split; [lia|]. split; [auto|]. unfold seg. rewrite Nat.sub_diag. apply tk_done. lia.
    - rewrite zrange_cons in H by lia. cbn [iterate_l] in H. unfold mbind at 1, modify in H.
      apply mbind_ok in H. destruct H as ([vs q] & s1 & H1 & H).
      apply Hb in H1. cbn [fst snd] in H1. destruct H1 as (-> & L1 & F1 & T1).
      apply IH in H; [|lia]. destruct H as (E2 & L2 & F2 & T2).
      split; [exact E2|]. split; [lia|]. split; [auto|].
      rewrite (seg_app p q) by assumption. eapply tk_next; [lia | exact T1 |].
      rewrite seg_len. replace (p + (q - p))%nat with q by lia. exact T2.
  Qed.

  Lemma pad_facts p : (pad6 p < 6 /\ (p + pad6 p) mod 6 = 0)%nat.
  Proof.
    unfold pad6. split; [apply Nat.mod_upper_bound; lia|].
    pose proof (Nat.mod_upper_bound p 6 ltac:(lia)) as B.
    pose proof (Nat.div_mod p 6 ltac:(lia)) as D. set (r := (p mod 6)%nat) in *. set (k := (p / 6)%nat) in *.
    destruct (Nat.eq_dec r 0) as [Z|Z].
    - rewrite Z. change ((6 - 0) mod 6)%nat with 0%nat. rewrite Nat.add_0_r. exact Z.
    - rewrite (Nat.mod_small (6 - r) 6) by lia. replace (p + (6 - r))%nat with ((S k) * 6)%nat by lia.
      apply Nat.mod_mul. lia.
  Qed.

  Lemma takes_ok : (forall i, item_ok i) /\ (forall b, body_ok b).
  Proof.
    apply lrecipe_mut.
    - intros e p s ls s' H. cbn [list_item] in H. unfold list_expr in H. rewrite W in H.
      destruct (nth_error vals p) as [n|] eqn:E; [|discriminate H].
      apply mbind_ok in H. destruct H as ([] & s1 & H1 & H). injection H as <- <-. cbn [fst snd].
      assert (p < length vals)%nat by (apply nth_error_Some; congruence).
      split; [reflexivity|]. split; [lia|]. split; [left; lia|].
      unfold seg. replace (S p - p)%nat with 1%nat by lia. cbn [seq map]. unfold at_.
      rewrite (nth_error_nth _ _ _ E). apply tk_expr. exact H1.
    - intros p s ls s' H. cbn [list_item] in H. unfold list_pad in H. rewrite W in H. injection H as <- <-.
      cbn [fst snd]. destruct (pad_facts p) as [P1 P2]. split; [reflexivity|]. split; [lia|]. split.
      + intros [F|[F1 F2]]; [right; split; [exact P2 | lia]|]. right. split; [exact P2|].
        assert (pad6 p = 0%nat) as -> by (unfold pad6; rewrite F1; reflexivity). lia.
      + apply tk_pad; rewrite seg_len; replace (p + pad6 p - p)%nat with (pad6 p) by lia; assumption.
    - intros v a b body IH p s ls s' H. rewrite list_loop_eq in H. unfold cycle_list_loop in H.
      apply mbind_ok in H. destruct H as (n1 & s1 & H1 & H). unfold eval_ctl in H1. injection H1 as H1 <-.
      apply mbind_ok in H. destruct H as (n2 & s1 & H2 & H). unfold eval_ctl in H2. injection H2 as H2 <-.
      apply mbind_ok in H. destruct H as (za & s1 & H3 & H). injection H3 as H3 <-.
      apply mbind_ok in H. destruct H as (zb & s1 & H4 & H). injection H4 as H4 <-.
      destruct (lget v (ps_loops s)) eqn:L; [discriminate H|].
      apply mbind_ok in H. destruct H as (r & s1 & H5 & H).
      apply mbind_ok in H. destruct H as ([] & s2 & H6 & H). injection H as <- <-.
      pose proof H5 as HK.
      apply (loop_ok v body zb IH _ _ _ _ _ _ eq_refl) in H5. destruct H5 as (E & Lr & F & T).
      split; [exact E|]. split; [exact Lr|]. split; [exact F|].
      assert (S2 : s2 = set_loops (ps_loops s) s1).
      { assert (B : forall ls, keeps (both (fun _ _ => True)) (list_body en body ls)).
        { intros ls. apply (proj2 (k_list en (both (fun _ _ => True)) (both_preorder _ TP) TD (lfor_both en (fun _ _ => True) TP TL))). }
        apply (iterate_l_both (fun _ _ => True) TP TL v _ B) in HK.
        destruct HK as [_ [[Z ->] | (N & j & Lj)]].
        - apply zrange_nil_iff in Z. rewrite Z in H6. injection H6 as <-. destruct s; reflexivity.
        - destruct (za <=? zb) eqn:C; [|destruct N; apply zrange_nil_iff; exact C]. injection H6 as <-.
          rewrite Lj, ldel_head, (ldel_none _ _ L). reflexivity. }
      rewrite S2. apply int_of_val_is in H3. destruct H3 as (m1 & -> & I1).
      apply int_of_val_is in H4. destruct H4 as (m2 & -> & I2).
      eapply tk_loop; [exists m1; split; eassumption | exists m2; split; eassumption | exact T].
    - intros p s ls s' H. injection H as <- <-. cbn [fst snd]. split; [reflexivity|]. split; [lia|]. split; [auto|].
      unfold seg. rewrite Nat.sub_diag. apply tk_nil.
    - intros i IHi b IHb p s ls s' H. rewrite list_cons_eq in H.
      apply mbind_ok in H. destruct H as ([vs q] & s1 & H1 & H).
      apply IHi in H1. cbn [fst snd] in H1. destruct H1 as (-> & L1 & F1 & T1).
      apply IHb in H. destruct H as (E2 & L2 & F2 & T2).
      split; [exact E2|]. split; [lia|]. split; [auto|].
      rewrite (seg_app p q) by assumption. eapply tk_cons; [exact T1|].
      rewrite seg_len. replace (p + (q - p))%nat with q by lia. exact T2.
  Qed.

  Lemma seg_all q : (length vals <= q)%nat -> seg 0 q = vals ++ seg (length vals) q.
  Proof.
    intros H. rewrite (seg_app 0 (length vals)) by lia. f_equal. unfold seg. rewrite Nat.sub_0_r. unfold at_.
    clear. generalize d as d0. intros d0. induction vals as [|x l IH]; [reflexivity|]. cbn [length seq map nth].
    f_equal. rewrite <- seq_shift, map_map. exact IH.
  Qed.

  Theorem body_takes_all b s vs pos s' : list_body en b (vals, O) s = (Ok (vs, pos), s') ->
    (length vals <= pos)%nat -> takes_all en b vals s s'.
  Proof.
    intros H L. apply (proj2 takes_ok) in H. cbn [fst snd] in H. destruct H as (_ & _ & F & T).
    rewrite (seg_all pos L) in T. exists (seg (length vals) pos). split; [exact T|].
    rewrite app_length, !seg_len. intros N.
    destruct (F ltac:(left; lia)) as [B|[B1 B2]].
    - destruct N. unfold seg. replace (pos - length vals)%nat with 0%nat by lia. reflexivity.
    - split; [lia|]. replace (length vals + (pos - length vals))%nat with pos by lia. exact B1.
  Qed.
End Takes.

Theorem list_all_taken en cs f body name s s' : e_write en = false -> ps_look s = None ->
  exec en (IList cs f body name) s = (Ok tt, s') ->
  exists o o' r c vals s1,
    skip_blank_lines (ps_lines s) (ps_ofs s) = Ok o /\
    read_list (e_ro en) (ps_lines s) o = Ok (r, c, vals, o') /\
    map_read en (combine (cont_vals r) (fields_list f)) (advance o o' s) = (Ok tt, s1) /\
    match name with
    | None => takes_all en body vals s1 s'
    | Some u => exists s2 s3, open_section en u s1 = (Ok tt, s2) /\ takes_all en body vals s2 s3 /\
                              close_section s3 = (Ok tt, s')
    end.
Proof.
  intros W L H. cbn [exec] in H. rewrite proceed_none in H by exact L. unfold do_list in H. rewrite W in H.
  apply mbind_ok in H. destruct H as ([[r c] vals] & s1 & H1 & H).
  apply mbind_ok in H. destruct H as ([] & s2 & H2 & H).
  unfold check_spec_read, lift in H2. injection H2 as _ <-.
  apply mbind_ok in H. destruct H as ([] & s3 & H3 & H).
  unfold read_with in H1.
  destruct (skip_blank_lines _ _) as [o|e] eqn:E; [|discriminate H1].
  destruct (read_list _ _ _) as [[[[r0 c0] v0] o']|e] eqn:E2; [|discriminate H1]. injection H1 as -> -> -> <-.
  exists o, o', r, c, vals, s3. split; [reflexivity|]. split; [exact E2|]. split; [exact H3|].
  assert (L3 : ps_look s3 = None).
  { assert (K : keeps (fun s s' => ps_look s' = ps_look s) (map_read en (combine (cont_vals r) (fields_list f)))).
    { apply k_map_read; [split; [auto | intros; congruence] | reflexivity]. }
    apply K in H3. rewrite H3. exact L. }
  unfold if_proceed, should_proceed, mbind at 1 in H. rewrite L3 in H.
  apply mbind_ok in H. destruct H as ([vs pos] & s4 & H4 & H).
  destruct (Nat.ltb pos (length vals)) eqn:C; [discriminate H|]. apply Nat.ltb_ge in C. injection H as <-.
  unfold in_section in H4. destruct name as [u|].
  - apply mbind_ok in H4. destruct H4 as ([] & s5 & H5 & H4).
    apply mbind_ok in H4. destruct H4 as (b & s6 & H6 & H4).
    apply mbind_ok in H4. destruct H4 as ([] & s7 & H7 & H4). injection H4 as -> <-.
    exists s5, s6. split; [exact H5|]. split; [exact (body_takes_all en W vals body s5 vs pos s6 H6 C) | exact H7].
  - exact (body_takes_all en W vals body s3 vs pos s4 H4 C).
Qed.

(** ** The formats of the package *)

Lemma zset_get {A} (k q : Z) (v : A) l : zget q (zset k v l) = if q =? k then Some v else zget q l.
Proof.
  induction l as [|[k' w] r IH]; cbn [zset zget]; [reflexivity|].
  destruct (k =? k') eqn:E.
  - apply Z.eqb_eq in E. subst k'. cbn [zget]. destruct (q =? k); reflexivity.
  - cbn [zget]. rewrite IH. destruct (q =? k') eqn:E2; [|reflexivity].
    apply Z.eqb_eq in E2. subst k'. rewrite Z.eqb_sym, E. reflexivity.
Qed.

Lemma defdic_find d i b d' mf mt : defdic d i b = Ok d' ->
  (exists x, find_recipe d mf mt = Some x) -> exists x, find_recipe d' mf mt = Some x.
Proof.
  intros D [x F]. destruct i as [|k [|m [|]]]; try discriminate D; cbn [defdic] in D.
  - injection D as <-. unfold find_recipe in *. rewrite zset_get. destruct (mf =? k); [eauto|eauto].
  - destruct (zget k d) as [[y|l]|] eqn:E; try discriminate D; injection D as <-;
      unfold find_recipe in *; rewrite zset_get; destruct (mf =? k) eqn:Q; try (exists x; exact F);
      apply Z.eqb_eq in Q; subst k; rewrite E in F; [|discriminate F].
    rewrite !zset_get. destruct (mt =? m); [eauto|].
    destruct (zget mt l); [eauto|]. destruct (-1 =? m); [eauto|]. rewrite F. eauto.
Qed.
Lemma defdics_find l : forall d d' mf mt, defdics l d = Ok d' ->
  (exists x, find_recipe d mf mt = Some x) -> exists x, find_recipe d' mf mt = Some x.
Proof.
  induction l as [|[i b] r IH]; intros d d' mf mt D F; cbn [defdics] in D; [injection D as <-; exact F|].
  apply bind_ok in D. destruct D as (d1 & D1 & D). eapply IH; [exact D|]. eapply defdic_find; eassumption.
Qed.
Lemma defdics_app l1 l2 d : defdics (l1 ++ l2) d = bind (defdics l1 d) (defdics l2).
Proof.
  revert d. induction l1 as [|[i b] r IH]; intros d; cbn [app defdics bind]; [reflexivity|].
  destruct (defdic d i b) as [d'|e]; cbn [bind]; [apply IH | reflexivity].
Qed.

(** a definition that leaves the recipe of a section alone *)
Definition avoids (i : list Z) (mf mt : Z) : Prop :=
  match i with
  | [k] => mf <> k
  | [k; m] => mf <> k \/ (mt <> m /\ m <> -1)
  | _ => False
  end.
Lemma defdic_same d i b d' mf mt : defdic d i b = Ok d' -> avoids i mf mt ->
  (forall k m x, i = [k; m] -> mf = k -> zget k d <> Some (ROne x)) ->
  find_recipe d' mf mt = find_recipe d mf mt.
Proof.
  intros D Av N. destruct i as [|k [|m [|]]]; try discriminate D; cbn [defdic avoids] in D, Av.
  - injection D as <-. unfold find_recipe. rewrite zset_get.
    destruct (mf =? k) eqn:Q; [apply Z.eqb_eq in Q; contradiction | reflexivity].
  - destruct (zget k d) as [[y|l]|] eqn:E; try discriminate D; injection D as <-;
      unfold find_recipe; rewrite zset_get; destruct (mf =? k) eqn:Q; try reflexivity;
      apply Z.eqb_eq in Q; subst k; destruct Av as [Av|[Av Av']]; try contradiction; rewrite E, ?zset_get; cbn [zget].
    + destruct (mt =? m) eqn:Q; [apply Z.eqb_eq in Q; contradiction|].
      destruct (-1 =? m) eqn:Q2; [apply Z.eqb_eq in Q2; symmetry in Q2; contradiction|]. reflexivity.
    + destruct (mt =? m) eqn:Q; [apply Z.eqb_eq in Q; contradiction|].
      destruct (-1 =? m) eqn:Q2; [apply Z.eqb_eq in Q2; symmetry in Q2; contradiction|]. reflexivity.
Qed.
Lemma defdics_same l : forall d d' mf mt, defdics l d = Ok d' -> Forall (fun x => avoids (fst x) mf mt) l ->
  find_recipe d' mf mt = find_recipe d mf mt.
Proof.
  induction l as [|[i b] r IH]; intros d d' mf mt D F; cbn [defdics] in D; [injection D as <-; reflexivity|].
  apply bind_ok in D. destruct D as (d1 & D1 & D). inversion F as [|? ? F1 F2]; subst.
  rewrite (IH _ _ _ _ D F2). eapply defdic_same; [exact D1 | exact F1|].
  intros k m x -> -> E. cbn [defdic] in D1. rewrite E in D1. discriminate D1.
Qed.

Definition entries (rs : recipes) : list (Z * block) :=
  flat_map (fun p => match snd p with ROne b => [(fst p, b)] | RByMt l => map (fun q => (fst p, snd q)) l end) rs.
Lemma zget_In {A} k (l : list (Z * A)) v : zget k l = Some v -> In (k, v) l.
Proof.
  induction l as [|[k' w] r IH]; cbn [zget]; [discriminate|]. destruct (k =? k') eqn:E.
  - intros H. injection H as ->. apply Z.eqb_eq in E. subst. left. reflexivity.
  - intros H. right. apply IH. exact H.
Qed.
Lemma find_entries rs mf mt b : find_recipe rs mf mt = Some b -> In (mf, b) (entries rs).
Proof.
  unfold find_recipe, entries. destruct (zget mf rs) as [e|] eqn:E; [|discriminate].
  apply zget_In in E. intros H. apply in_flat_map. exists (mf, e). split; [exact E|]. cbn [fst snd].
  destruct e as [x|l]; [injection H as ->; left; reflexivity|].
  assert (G : exists k, In (k, b) l).
  { destruct (zget mt l) as [y|] eqn:E2.
    - injection H as ->. eexists. apply zget_In. exact E2.
    - eexists. apply zget_In. exact H. }
  destruct G as [k G]. apply in_map_iff. exists (k, b). split; [reflexivity | exact G].
Qed.
Definition mf_is (mf : Z) (cs : ctrlspec) : bool :=
  match cs_mf cs with Some z => z =? mf | None => false end.
Definition mf_fine (rs : recipes) : bool :=
  forallb (fun p => forallb (mf_is (fst p)) (specs_block (snd p))) (entries rs).

Lemma formats_fine f rs : get_recipe_dict f = Ok rs -> mf_fine rs = true.
Proof.
  unfold get_recipe_dict. intros H.
  destruct (str_eqb f _); [|destruct (str_eqb f _); [|destruct (str_eqb f _); [|destruct (str_eqb f _); [|discriminate H]]]].
  all: match type of H with ?x = _ => assert (E : match x with Ok r => mf_fine r | Err _ => true end = true) by (vm_compute; reflexivity) end;
    rewrite H in E; exact E.
Qed.

Theorem formats_mf f rs mf mt b : get_recipe_dict f = Ok rs -> find_recipe rs mf mt = Some b ->
  forall cs, In cs (specs_block b) -> cs_mf cs = Some mf.
Proof.
  intros G F cs I. apply formats_fine in G. apply find_entries in F.
  unfold mf_fine in G. rewrite forallb_forall in G. specialize (G _ F). cbn [fst snd] in G.
  rewrite forallb_forall in G. specialize (G _ I). unfold mf_is in G. destruct (cs_mf cs); [|discriminate G].
  apply Z.eqb_eq in G. congruence.
Qed.

Theorem format_section_placed f rs mf mt recipe en o lines s' :
  get_recipe_dict f = Ok rs -> find_recipe rs mf mt = Some recipe -> e_write en = false ->
  run_section en recipe (reset_state o lines []) = (Ok tt, s') ->
  forall a b, In (a, b) (ps_log s') -> exists l mat mf' mt',
    nth_error lines a = Some l /\ carries (r_width (e_ro en)) l mat mf' mt' /\ (mt' = 0 \/ mf' = mf).
Proof.
  intros G F W H a b I. destruct (section_placed en recipe o lines s' W H a b I) as (l & mat & mf' & mt' & N & C & D).
  exists l, mat, mf', mt'. split; [exact N|]. split; [exact C|]. destruct D as [D|(cs & Ics & _ & M & _)]; [left; exact D|].
  right. apply M. exact (formats_mf f rs mf mt recipe G F cs Ics).
Qed.

Lemma formats_ok f : In f list_endf_flavors -> exists rs, get_recipe_dict f = Ok rs.
Proof.
  assert (E : forall f, In f list_endf_flavors -> match get_recipe_dict f with Ok _ => true | Err _ => false end = true).
  { intros g H. repeat (destruct H as [<-|H]; [vm_compute; reflexivity|]). destruct H. }
  intros H. specialize (E _ H). destruct (get_recipe_dict f) as [rs|]; [eauto | discriminate E].
Qed.
Lemma formats_unknown f : ~ In f list_endf_flavors -> get_recipe_dict f = Err TypeError.
Proof.
  intros H. unfold get_recipe_dict.
  repeat match goal with |- context [str_eqb f ?x] =>
    let E := fresh in destruct (str_eqb f x) eqn:E;
    [apply str_eqb_eq in E; subst f; destruct H; unfold list_endf_flavors; cbn [In]; tauto|] end.
  reflexivity.
Qed.

Lemma formats_extend f rs base : get_recipe_dict f = Ok rs -> get_recipe_dict $"endf6" = Ok base ->
  exists defs, defdics defs base = Ok rs /\
    (forall mf mt, ~ overridden f mf mt -> Forall (fun x => avoids (fst x) mf mt) defs).
Proof.
  unfold get_recipe_dict at 2. change (str_eqb $"endf6" $"endf6") with true. cbv iota.
  unfold get_recipe_dict. intros H B.
  destruct (str_eqb f $"endf6") eqn:E1.
  { exists []. split; [cbn [defdics]; congruence | constructor]. }
  destruct (str_eqb f $"endf6-ext") eqn:E2; [|destruct (str_eqb f $"jendl") eqn:E3; [|destruct (str_eqb f $"pendf") eqn:E4; [|discriminate H]]];
    rewrite defdics_app, B in H; cbn [bind] in H; eexists; (split; [exact H|]); intros mf mt N.
  - apply str_eqb_eq in E2. subst f. unfold endf6_ext_defs.
    repeat (apply Forall_cons || apply Forall_nil); cbn [fst avoids]; unfold overridden in N.
    + destruct (Z.eq_dec mf 8); [|tauto]. right. split; [|discriminate]. intros ->. apply N. right. left. auto.
    + intros ->. apply N. right. left. auto.
  - apply str_eqb_eq in E3. subst f. unfold jendl_defs.
    repeat (apply Forall_cons || apply Forall_nil); cbn [fst avoids]; unfold overridden in N.
    destruct (Z.eq_dec mf 8); [|tauto]. right. split; [|discriminate]. intros ->. apply N. left. auto.
  - apply str_eqb_eq in E4. subst f. unfold pendf_defs.
    assert (N' : ~ (mf = 1 /\ mt = 451 \/ mf = 2 /\ (mt = 152 \/ mt = 153) \/ mf = 3 \/ mf = 6 \/ mf = 23)).
    { intros Q. apply N. right. right. auto. }
    repeat (apply Forall_cons || apply Forall_nil); cbn [fst avoids]; lia.
Qed.

Theorem formats_same f rs base mf mt : get_recipe_dict f = Ok rs -> get_recipe_dict $"endf6" = Ok base ->
  ~ overridden f mf mt -> find_recipe rs mf mt = find_recipe base mf mt.
Proof.
  intros G B N. destruct (formats_extend f rs base G B) as (defs & D & A).
  exact (defdics_same defs base rs mf mt D (A mf mt N)).
Qed.
Theorem formats_more f rs base mf mt : get_recipe_dict f = Ok rs -> get_recipe_dict $"endf6" = Ok base ->
  (exists b, find_recipe base mf mt = Some b) -> exists b, find_recipe rs mf mt = Some b.
Proof.
  intros G B. destruct (formats_extend f rs base G B) as (defs & D & _).
  exact (defdics_find defs base rs mf mt D).
Qed.

(** ** Control numbers of a dictionary *)

Lemma val_eqZ_vint z y : val_eqZ (vint z) y = (z =? y).
Proof.
  unfold val_eqZ, vint. unfold val_eqb, num_eqb, num_cmp. cbn [sf_of num_num num_den]. rewrite !Z.mul_1_r.
  destruct (z ?= y) eqn:C; symmetry.
  - apply Z.compare_eq in C. apply Z.eqb_eq. exact C.
  - apply Z.eqb_neq. intros ->. rewrite Z.compare_refl in C. discriminate.
  - apply Z.eqb_neq. intros ->. rewrite Z.compare_refl in C. discriminate.
Qed.

Theorem wrong_numbers en explain b o mf mt d z :
  (dget (KStr $"MF") d = Some (vint z) /\ z <> mf) \/ (dget (KStr $"MT") d = Some (vint z) /\ z <> mt) ->
  fst (write_recipe en explain b o mf mt d) = Err UnexpectedControlRecordError.
Proof.
  intros H. unfold write_recipe. destruct (set_ctrl_default $"MF" mf d) as [d1 ok1] eqn:E1.
  destruct ok1; cbn [negb]; [|reflexivity].
  destruct (set_ctrl_default $"MT" mt d1) as [d2 ok2] eqn:E2. destruct ok2; cbn [negb]; [|reflexivity].
  exfalso. unfold set_ctrl_default in E1, E2. destruct H as [[H N]|[H N]].
  - rewrite H in E1. apply (f_equal snd) in E1. cbn [snd] in E1. rewrite val_eqZ_vint in E1. apply Z.eqb_eq in E1. contradiction.
  - assert (G : dget (KStr $"MT") d1 = Some (vint z)).
    { apply (f_equal fst) in E1. destruct (dget (KStr $"MF") d); cbn [fst] in E1; subst d1; [exact H|].
      rewrite dget_dset_other by discriminate. exact H. }
    rewrite G in E2. apply (f_equal snd) in E2. cbn [snd] in E2. rewrite val_eqZ_vint in E2. apply Z.eqb_eq in E2. contradiction.
Qed.

(** the MT number a recipe is registered for, if there is one *)
Definition entries_mt (rs : recipes) : list (Z * option Z * block) :=
  flat_map (fun p => match snd p with
                     | ROne b => [(fst p, None, b)]
                     | RByMt l => map (fun q => (fst p, if fst q =? -1 then None else Some (fst q), snd q)) l
                     end) rs.
Definition mt_is (mt : option Z) (cs : ctrlspec) : bool :=
  match cs_mt cs, mt with None, _ => true | Some z, Some mt => z =? mt | Some _, None => false end.
Definition mt_fine (rs : recipes) : bool :=
  forallb (fun p => (fst (fst p) =? 32) || forallb (mt_is (snd (fst p))) (specs_block (snd p))) (entries_mt rs).
Lemma find_entries_mt rs mf mt b : mt <> -1 -> find_recipe rs mf mt = Some b ->
  In (mf, None, b) (entries_mt rs) \/ In (mf, Some mt, b) (entries_mt rs).
Proof.
  intros Nm. unfold find_recipe, entries_mt. destruct (zget mf rs) as [e|] eqn:E; [|discriminate].
  apply zget_In in E. intros H. destruct e as [x|l].
  - injection H as ->. left. apply in_flat_map. eexists. split; [exact E|]. left. reflexivity.
  - destruct (zget mt l) as [y|] eqn:E2.
    + injection H as ->. right. apply in_flat_map. eexists. split; [exact E|]. cbn [fst snd]. apply in_map_iff.
      exists (mt, b). split; [|now apply zget_In]. cbn [fst snd]. apply Z.eqb_neq in Nm. now rewrite Nm.
    + left. apply in_flat_map. eexists. split; [exact E|]. cbn [fst snd]. apply in_map_iff.
      exists (-1, b). split; [reflexivity|now apply zget_In].
Qed.
Lemma formats_fine_mt f rs : get_recipe_dict f = Ok rs -> mt_fine rs = true.
Proof.
  unfold get_recipe_dict. intros H.
  destruct (str_eqb f _); [|destruct (str_eqb f _); [|destruct (str_eqb f _); [|destruct (str_eqb f _); [|discriminate H]]]].
  all: match type of H with ?x = _ => assert (E : match x with Ok r => mt_fine r | Err _ => true end = true) by (vm_compute; reflexivity) end;
    rewrite H in E; exact E.
Qed.
Lemma formats_mt f rs mf mt b : get_recipe_dict f = Ok rs -> mt <> -1 -> find_recipe rs mf mt = Some b ->
  forall cs, In cs (specs_block b) -> cs_mf cs = Some mf /\ (cs_mt cs = None \/ cs_mt cs = Some mt \/ mf = 32).
Proof.
  intros G Nm F cs I. split; [exact (formats_mf f rs mf mt b G F cs I)|].
  apply formats_fine_mt in G. unfold mt_fine in G. rewrite forallb_forall in G.
  destruct (find_entries_mt _ _ _ _ Nm F) as [E|E]; specialize (G _ E); cbn [fst snd] in G;
    (apply orb_prop in G as [G|G]; [apply Z.eqb_eq in G; auto|]); rewrite forallb_forall in G; specialize (G _ I);
    unfold mt_is in G; destruct (cs_mt cs); auto; [discriminate G|]. apply Z.eqb_eq in G. subst. auto.
Qed.
