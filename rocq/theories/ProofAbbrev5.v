(** A recipe and the recipe in which the abbreviations are replaced: whole recipes. *)
From Coq Require Import Ascii String ZArith Bool Lia Permutation List.
From Verif Require Import PyBase ModelFortran ModelRecords ModelNum ModelRecipe ModelInterp.
From Verif Require Import SpecInterp SpecRound SpecAbbrev ProofPyBase ProofInterp ProofInterpSec ProofInterpMap ProofRound3
  ProofAbbrev ProofAbbrev2 ProofAbbrev3 ProofAbbrev4.
Import ListNotations.
Open Scope Z_scope.

(** nothing is done once the lookahead is used up *)
Lemma block_done en b s : ps_look s = Some 0 -> exec_block en b s = (Ok tt, s).
Proof.
  intros H. destruct b as [|i r]; [reflexivity|]. rewrite exec_cons_eq. unfold mbind, should_proceed. rewrite H. reflexivity.
Qed.

Section Sim.
  Variable en : env.
  Variable B secs res : list str.
  Variable strict : bool.
  Variable dp : nat.
  Hypothesis Hdepth : e_depth en = S dp.
  Hypothesis Hres : forall x, In x res -> internalb x = false /\ ctrl_nameb x = false.
  Hypothesis Hstrict : strict = true -> incl B res.

  Notation K := (K res strict).
  Notation tidy := (tidy res strict).
  Notation rel := (rel B secs res strict).
  Notation ew := (ew secs res strict).
  Notation sim := (sim strict).
  Notation rl w A O := (rel w false A O).
  Notation er A O := (ew (hidden A) (map hidden O)).

  (** ** Introducing and removing abbreviations *)

  Lemma abbr_name_spec x : abbr_name B secs x = true -> bname B secs x.
  Proof.
    unfold abbr_name, bname. rewrite !andb_true_iff, !negb_true_iff. intros (((H1 & H2) & H3) & H4).
    apply among_in in H1. apply among_out in H4. auto.
  Qed.

  Lemma introduce_rel A O x e s1 s2 : abbr_name B secs x = true -> rl true A O s1 s2 ->
    match introduce x e s1 with
    | (Ok _, t1) => rel true true (after A (IAbbrev x e)) O t1 s2 /\ ps_look t1 = ps_look s1
    | (Err err, _) => err = AbbreviationNameCollisionError /\ strict = false
    end.
  Proof.
    intros HB R. apply abbr_name_spec in HB. pose proof HB as (B1 & B2 & B3 & B4).
    pose proof R as (Rs & F & NB & N & L & W & D). specialize (W eq_refl). destruct D as [D|[D _]]; [|discriminate].
    pose proof (not_AB x B2) as NAB.
    assert (HA : forall y, In y (hidden A) -> In y (hidden (after A (IAbbrev x e)))).
    { intros y J. cbn [after hidden map fst In]. destruct (str_eqb y x) eqn:Q; [apply str_eqb_eq in Q; auto|]. right.
      apply hidden_meaning in J. apply hidden_meaning. rewrite meaning_without. unfold among. cbn [existsb]. rewrite Q. exact J. }
    assert (HD : forall N' d', In x N' -> incl N N' -> dget (KStr x) d' = Some (VExpr e) ->
      (forall y v, y <> x -> internalb y = false -> dget (KStr y) (ps_dic s1) = Some v -> dget (KStr y) d' = Some v) -> defd (after A (IAbbrev x e)) N' d').
    { intros N' d' J1 J2 V O' y a M. cbn [after meaning] in M. destruct (str_eqb y x) eqn:Q.
      - apply str_eqb_eq in Q. subst y. injection M as <-. auto.
      - rewrite meaning_without in M. unfold among in M. cbn [existsb] in M. rewrite Q in M. cbn [orb] in M.
        destruct (D y a M) as [P1 P2]. split; [auto|]. apply O'; [|now destruct (l_names _ _ _ _ _ _ _ _ L _ P1) as [_ (_ & X & _)]|exact P2].
        intros ->. rewrite str_eqb_refl in Q. discriminate. }
    unfold introduce. cbv zeta. fold AB. rewrite W. destruct (dget (KStr x) (ps_dic s1)) as [w|] eqn:G.
    - destruct (existsb (str_eqb x) N) eqn:Kn.
      + apply among_in in Kn. split; [|reflexivity]. unfold ProofAbbrev2.rel. cbn [set_dic ps_up ps_dic ps_loops ps_look].
        split; [destruct Rs; constructor; assumption|]. split; [exact F|]. split; [exact NB|]. exists N. split; [|split].
        * destruct L as [E T ND NM VL LA]. constructor.
          -- rewrite rm_dset_in by exact Kn. exact E.
          -- exact T.
          -- exact ND.
          -- intros y J. destruct (NM y J). auto.
          -- intros y J. destruct (str_eqb y x) eqn:Q.
             ++ apply str_eqb_eq in Q. subst y. split; [exists e; apply dget_dset_same|].
                destruct (VL x J) as [_ V]. rewrite ddel_dset by congruence. exact V.
             ++ assert (NE : x <> y) by (intros ->; rewrite str_eqb_refl in Q; discriminate).
                destruct (VL y J) as [V1 V2]. rewrite dget_dset_other by congruence. rewrite dget_ddel_dset by exact NE. auto.
          -- intros NE. rewrite dget_dset_other; [auto|congruence].
        * intros _. rewrite dget_dset_other; [exact W|congruence].
        * left. apply HD; [exact Kn|apply incl_refl|apply dget_dset_same|].
          intros y v NE _ V. rewrite dget_dset_other by congruence. exact V.
      + split; [reflexivity|]. apply among_out in Kn. destruct strict eqn:ST; [|reflexivity]. exfalso.
        rewrite (lvn_get _ _ _ _ _ _ _ _ _ L Kn B2) in G. destruct (dtidy_get _ _ _ _ _ (l_tidy _ _ _ _ _ _ _ _ L) G) as [X _].
        cbn [KK] in X. apply (X eq_refl). apply Hstrict; [reflexivity|exact B1].
    - assert (Kn : ~ In x N).
      { intros J. destruct (l_vals _ _ _ _ _ _ _ _ L _ J) as [[w V] _]. congruence. }
      pose proof (proj2 (among_out x N) Kn) as KN. unfold among in KN. rewrite KN. split; [|reflexivity].
      assert (HAB : forall l, (forall y, In y l -> internalb y = false) -> ~ In $"__abbrevs" l).
      { intros l H J. specialize (H _ J). rewrite ab_internal in H. discriminate. }
      assert (IN : forall y, In y N -> internalb y = false).
      { intros y J. now destruct (l_names _ _ _ _ _ _ _ _ L _ J) as [_ (_ & X & _)]. }
      assert (NAB' : ~ In $"__abbrevs" (N ++ [x])).
      { apply HAB. intros y J. apply in_app_iff in J. destruct J as [J|[J|[]]]; [auto|congruence]. }
      pose proof (ab_rm _ _ _ _ _ _ _ _ L) as AR.
      unfold ProofAbbrev2.rel. cbn [set_dic ps_up ps_dic ps_loops ps_look].
      split; [destruct Rs; constructor; assumption|]. split; [exact F|]. split; [exact NB|]. exists (N ++ [x]).
      assert (GAB : dget AB (dset (KStr x) (VExpr e) (dset AB (VNames (N ++ [x])) (ps_dic s1))) = Some (VNames (N ++ [x]))).
      { rewrite dget_dset_other by congruence. apply dget_dset_same. }
      split; [|split; [intros _; exact GAB|]].
      + destruct L as [E T ND NM VL LA]. constructor.
        * rewrite rm_dset_in by (apply in_app_iff; right; now left). unfold AB at 1. rewrite rm_dset_out by exact NAB'. fold AB. rewrite rm_more by exact G.
          assert (S : setab (N ++ [x]) (dset AB (VNames (N ++ [x])) (rm N (ps_dic s1))) = dset AB (VNames []) (rm N (ps_dic s1))).
          { destruct N; cbn [setab app]; apply dset_dset_same. }
          rewrite S, E. destruct N as [|y r]; [|reflexivity]. cbn [setab]. symmetry. apply dset_same. rewrite AR. exact W.
        * exact T.
        * apply (Permutation_NoDup (Permutation_cons_append N x)). constructor; assumption.
        * intros y J. apply in_app_iff in J. destruct J as [J|[<-|[]]]; [destruct (NM y J); auto|].
          split; [|exact HB]. cbn [after hidden map fst In]. now left.
        * intros y J. apply in_app_iff in J. destruct J as [J|[<-|[]]].
          -- assert (NE : x <> y) by (intros ->; tauto). destruct (VL y J) as [V1 V2]. pose proof (not_AB y (IN y J)).
             rewrite dget_dset_other by congruence. rewrite dget_dset_other by congruence.
             rewrite dget_ddel_dset by exact NE. unfold AB. rewrite dget_ddel_dset; [auto|]. intros X. subst y. specialize (IN _ J). rewrite ab_internal in IN. discriminate.
          -- split; [exists e; apply dget_dset_same|].
             assert (Z : dget (KStr x) (dset AB (VNames (N ++ [x])) (ps_dic s1)) = None) by (rewrite dget_dset_other by congruence; exact G).
             revert Z. generalize (dset AB (VNames (N ++ [x])) (ps_dic s1)). clear. induction d as [|[k w] r IH]; cbn [dget dset ddel].
             ++ now rewrite key_eqb_refl.
             ++ destruct (key_eqb (KStr x) k) eqn:Q; [discriminate|]. intros Z. cbn [ddel]. rewrite Q. cbn [dget]. rewrite Q. auto.
        * intros _. exact GAB.
      + left. apply HD; [apply in_app_iff; right; now left|apply incl_appl, incl_refl|apply dget_dset_same|].
        intros y v NE I V. rewrite dget_dset_other by congruence. pose proof (not_AB y I). rewrite dget_dset_other by congruence. exact V.
  Qed.

  Lemma rel_init O s1 s2 : rl false [] O s1 s2 ->
    rl true [] O (set_dic (init_working (ps_dic s1)) s1) (set_dic (init_working (ps_dic s2)) s2).
  Proof.
    intros (Rs & F & NB & N & L & _ & _). destruct (lvn_nil _ _ _ _ _ _ _ L) as (-> & E & T).
    unfold ProofAbbrev2.rel. cbn [set_dic ps_up ps_dic ps_loops ps_look].
    split; [destruct Rs; constructor; assumption|]. split; [exact F|]. split; [exact NB|]. exists []. rewrite E.
    split; [|split; [|left; intros x a M; discriminate M]].
    - apply lvn_same. unfold init_working. apply dtidy_set; [now apply (K_internal res strict Hres)|constructor; constructor|].
      apply dtidy_set; [now apply (K_internal res strict Hres)|constructor|exact T].
    - intros _. unfold init_working. rewrite dget_dset_other by discriminate. apply dget_dset_same.
  Qed.

  Lemma sim_remove A O : sim (rel true true A O) (rl false [] O) (er A O) remove_working remove_working.
  Proof.
    intros s1 s2 R. pose proof R as (Rs & F & NB & N & L & W & _). specialize (W eq_refl). unfold remove_working. fold AB. rewrite W.
    assert (W2 : dget AB (ps_dic s2) = Some (VNames [])).
    { rewrite (l_eq _ _ _ _ _ _ _ _ L). destruct N as [|y r]; [cbn [setab]; now rewrite rm_nil|]. cbn [setab]. apply dget_dset_same. }
    rewrite W2. cbn [del_names].
    rewrite del_names_rm; [|exact (l_nodup _ _ _ _ _ _ _ _ L)|].
    2:{ intros x J. destruct (l_vals _ _ _ _ _ _ _ _ L _ J) as [[e V] V2]. split; [congruence|exact V2]. }
    assert (E : ddel AB (rm N (ps_dic s1)) = ddel AB (ps_dic s2)).
    { rewrite (l_eq _ _ _ _ _ _ _ _ L). destruct N as [|y r]; [reflexivity|]. unfold setab. rewrite ddel_dset; [reflexivity|].
      rewrite (ab_rm _ _ _ _ _ _ _ _ L), W. discriminate. }
    rewrite E. constructor. unfold ProofAbbrev2.rel. cbn [set_dic ps_up ps_dic ps_loops ps_look].
    split; [destruct Rs; constructor; assumption|]. split; [exact F|]. split; [exact NB|]. exists [].
    split; [|split; [discriminate|left; intros x a M; discriminate M]].
    apply lvn_same. apply dtidy_del, dtidy_del. exact (l_tidy _ _ _ _ _ _ _ _ L).
  Qed.

  (** ** Conditions *)

  Lemma unfold_truth A bad sc1 sc2 c : sees A bad true sc1 sc2 ->
    forall c', unfold_cond A bad c = Some c' -> truthvalue en sc1 c = truthvalue en sc2 c'.
  Proof.
    intros S. induction c as [r a b|a IHa b IHb|a IHa b IHb]; intros c'; cbn [unfold_cond].
    - destruct (unfold_expr A bad a) eqn:Ua; [|discriminate]. destruct (unfold_expr A bad b) eqn:Ub; [|discriminate].
      intros H. injection H as <-. cbn [truthvalue]. unfold eval_relation, eval_known. rewrite Hdepth.
      rewrite (unfold_eval _ _ _ _ _ _ _ _ _ S _ Ua), (unfold_eval _ _ _ _ _ _ _ _ _ S _ Ub). reflexivity.
    - destruct (unfold_cond A bad a) eqn:Ua; [|discriminate]. destruct (unfold_cond A bad b) eqn:Ub; [|discriminate].
      intros H. injection H as <-. cbn [truthvalue]. now rewrite (IHa _ eq_refl), (IHb _ eq_refl).
    - destruct (unfold_cond A bad a) eqn:Ua; [|discriminate]. destruct (unfold_cond A bad b) eqn:Ub; [|discriminate].
      intros H. injection H as <-. cbn [truthvalue]. now rewrite (IHa _ eq_refl), (IHb _ eq_refl).
  Qed.
  Lemma sees_less A L bad sc1 sc2 : incl (hidden A) L -> sees A bad true sc1 sc2 -> sees (forget L []) bad true sc1 sc2.
  Proof.
    intros I [H _]. split.
    - intros x ix P. apply H. intros J. apply P. apply hidden_forget. auto.
    - intros x a. rewrite meaning_forget. cbn [meaning]. destruct (among x L); discriminate.
  Qed.
  Lemma frs_length O : forall u1 u2, frs B secs res strict O u1 u2 -> length u1 = length O /\ length u2 = length O.
  Proof.
    induction O as [|A O IH]; intros [|f1 u1] [|f2 u2]; cbn [frs length]; try tauto. intros (_ & _ & _ & _ & F). destruct (IH _ _ F). lia.
  Qed.

  Lemma sim_plain_test A O c c' : unfold_cond A (outside secs O) c = Some c' ->
    sim (rl true A O) (rl true A O) (er A O) (fun s => (truthvalue en (scope_of s) c, s)) (fun s => (truthvalue en (scope_of s) c', s)).
  Proof.
    intros U. apply sim_read; [|intros a b; apply rl_er]. intros s1 s2 R.
    exact (unfold_truth _ _ _ _ _ (proj2 (rel_sees _ _ _ _ _ _ _ _ _ R)) _ U).
  Qed.

  Lemma sim_look A O L c c' k k' (m1 m2 : M unit) : incl (hidden A) L ->
    unfold_cond (forget L []) (outside secs O) c = Some c' -> unfold_expr A (outside secs O) k = Some k' ->
    sim (rel true true A O) (ew L (map hidden O)) (ew L (map hidden O)) m1 m2 ->
    sim (rl true A O) (rl true A O) (ew L (map hidden O)) (if_statement en c (Some k) m1) (if_statement en c' (Some k') m2).
  Proof.
    intros I Uc Uk H. assert (RE : forall a b, rl true A O a b -> ew L (map hidden O) a b) by (intros a b; now apply rel_ew).
    unfold if_statement. destruct (e_write en).
    - apply sim_read; [|exact RE]. intros s1 s2 R.
      apply (unfold_truth (forget L []) (outside secs O)); [|exact Uc]. apply (sees_less A); [exact I|].
      exact (proj2 (rel_sees _ _ _ _ _ _ _ _ _ R)).
    - eapply sim_bind.
      { eapply sim_weak; [intros a b X; exact X|intros a b X; exact X| |exact (sim_eval_ctl en B secs res strict dp Hdepth true A O k k' Uk)].
        intros a b. apply ew_mono, I. }
      intros v. eapply sim_bind; [apply sim_lift, RE|]. intros n o1 o2 R. pose proof R as (Rs & F & NB & _).
      rewrite (r_look _ _ Rs). destruct (ps_look o2); [constructor; auto|].
      destruct (frs_length _ _ _ F) as [L1 L2]. cbv zeta. rewrite L1, L2. rewrite <- (map_length hidden O).
      assert (R1 : rel true true A O (set_look (Some n) (set_opts (all_ignored (ps_opts o1)) o1)) (set_look (Some n) (set_opts (all_ignored (ps_opts o2)) o2))).
      { apply rel_loose with false. eapply rel_other; [exact R| | | | | | |]; try reflexivity; [|exact NB|discriminate].
        destruct Rs; constructor; cbn [set_look set_opts ps_loops ps_look ps_lines ps_ofs ps_opts ps_log]; congruence. }
      assert (G : forall t1 t2, ew L (map hidden O) t1 t2 ->
        outc strict (rl true A O) (ew L (map hidden O))
          (let '(up, d) := unwind (length (map hidden O)) (ps_up (set_look None t1)) (ps_dic (set_look None t1)) in
           match truthvalue en {| sc_dic := d; sc_up := up; sc_loops := ps_loops (set_look None t1) |} c with
           | Ok b => (Ok b, o1) | Err e => (Err e, set_look None t1) end)
          (let '(up, d) := unwind (length (map hidden O)) (ps_up (set_look None t2)) (ps_dic (set_look None t2)) in
           match truthvalue en {| sc_dic := d; sc_up := up; sc_loops := ps_loops (set_look None t2) |} c' with
           | Ok b => (Ok b, o2) | Err e => (Err e, set_look None t2) end)).
      { intros t1 t2 (Rt & Wt). cbn [set_look ps_up ps_dic ps_loops]. destruct (unwind_wk _ _ _ _ _ _ _ _ _ Wt) as [W1 W2].
        destruct (unwind (length (map hidden O)) (ps_up t1) (ps_dic t1)) as [u1 d1].
        destruct (unwind (length (map hidden O)) (ps_up t2) (ps_dic t2)) as [u2 d2]. cbn [fst snd] in W1, W2.
        rewrite (unfold_truth (forget L []) (outside secs O) {| sc_dic := d1; sc_up := u1; sc_loops := ps_loops t1 |}
          {| sc_dic := d2; sc_up := u2; sc_loops := ps_loops t2 |} c) with (c' := c'); [| |exact Uc].
        - destruct (truthvalue en {| sc_dic := d2; sc_up := u2; sc_loops := ps_loops t2 |} c'); constructor; [exact R|].
          split; [|exact Wt]. destruct Rt; constructor; cbn [set_look ps_loops ps_look ps_lines ps_ofs ps_opts ps_log]; congruence.
        - eapply wk_sees; cbn [sc_dic sc_up sc_loops]; [exact (r_loops _ _ Rt)|exact W1|exact W2]. }
      destruct (H _ _ R1) as [a t1 t2 Q|e t1 t2 Q|t1 r ST]; [now apply G| |now apply o_coll].
      destruct e; try (constructor; exact Q). now apply G.
  Qed.

  (** ** The induction *)

  Notation blk A O b b' := (sim (rel true true A O) (rel true true (forget (intro_block b) A) O)
    (ew (hidden A ++ intro_block b) (map hidden O)) (exec_block en b) (exec_block en b')).

  Lemma nil_forget z A O s1 s2 : rel true z A O s1 s2 -> rel true true (forget [] A) O s1 s2.
  Proof. apply rel_weaker, weaker_forget. Qed.

  Lemma sim_iterate A O L v (b1 b2 : M unit) : ~ In v B -> sim (rel true true A O) (rel true true A O) (ew L (map hidden O)) b1 b2 ->
    forall is_, sim (rel true true A O) (rel true true A O) (ew L (map hidden O)) (iterate v is_ b1) (iterate v is_ b2).
  Proof.
    intros V H. induction is_ as [|i r IH]; cbn [iterate]; [apply sim_ret|].
    eapply sim_bind.
    - apply sim_modify. intros s1 s2 R. exact (rel_loops _ _ _ _ _ _ _ _ _ _ (fun l => (v, i) :: ldel v l) R (fun l => nob_cons B v i l V)).
    - intros _. eapply sim_bind; [apply H|]. intros _. apply IH.
  Qed.

  Theorem sim_recipe :
    (forall i A O i', unfold_instr B secs res A O i = Some i' ->
       sim (rl true A O) (rel true true (after A i) O) (ew (hidden A ++ intro_instr i) (map hidden O)) (exec en i) (exec en i')) /\
    (forall b A O b', unfold_block B secs res A O b = Some b' -> blk A O b b') /\
    (forall br A O br', unfold_branch B secs res A O br = Some br' ->
       sim (rl true A O) (rl true A O) (ew (hidden A ++ intro_branch br) (map hidden O)) (test_branch en br) (test_branch en br') /\
       sim (rel true true A O) (rel true true (forget (intro_branch br) A) O) (ew (hidden A ++ intro_branch br) (map hidden O))
         (exec_branch en br) (exec_branch en br')) /\
    (forall r A O r', unfold_branches B secs res A O r = Some r' -> forall l m1 m2,
       sim (rel true true A O) (rel true true (forget l A) O) (ew (hidden A ++ l) (map hidden O)) m1 m2 ->
       sim (rl true A O) (rel true true (forget (intro_branches r ++ l) A) O) (ew (hidden A ++ intro_branches r ++ l) (map hidden O))
         (exec_branches en r m1) (exec_branches en r' m2)).
  Proof.
    assert (SI : forall i A O i', simple i -> intro_instr i = [] -> after A i = forget [] A -> unfold_instr B secs res A O i = Some i' ->
       sim (rl true A O) (rel true true (after A i) O) (ew (hidden A ++ intro_instr i) (map hidden O)) (exec en i) (exec en i')).
    { intros i A O i' S E1 E2 U. rewrite E1, E2, app_nil_r.
      eapply sim_weak; [intros a b X; exact X|intros a b; apply nil_forget|intros a b X; exact X|].
      eapply sim_simple; eassumption. }
    apply recipe_mut; try (intros; now apply SI).
    - (* section *)
      intros h t b IH A O i'. rewrite unfold_section_eq. destruct (section_name B secs res A (fst h)) eqn:SN; [|discriminate].
      destruct (unfold_block B secs res [] (A :: O) b) as [b'|] eqn:U; [|discriminate]. intros X. injection X as <-.
      cbn [intro_instr after]. rewrite app_nil_r. rewrite !exec_section_eq. unfold guarded.
      eapply sim_bind; [apply sim_proceed|]. intros [|].
      2:{ eapply sim_weak; [intros a c X; exact X|intros a c; apply nil_forget|intros a c X; exact X|apply sim_ret]. }
      destruct (negb _); [apply sim_fail; intros a c; apply rl_er|].
      eapply sim_bind; [now apply sim_open|]. intros _.
      eapply sim_bind; [apply sim_modify; intros a c; apply rel_init|]. intros _.
      eapply sim_bind.
      { eapply sim_weak; [|intros a c X; exact X| |exact (IH [] (A :: O) b' U)].
        - intros a c. apply rel_loose.
        - intros a c. cbn [map]. apply ew_down. }
      intros _. eapply sim_bind.
      { eapply sim_weak; [intros a c X; exact X|intros a c X; exact X| |apply sim_remove]. intros a c. cbn [map]. apply ew_down. }
      intros _. eapply sim_weak; [intros a c X; exact X|intros a c; apply nil_forget|intros a c X; exact X|apply sim_close].
    - (* loop *)
      intros v a b body IH A O i'. rewrite unfold_for_eq. destruct (unfold_expr A (outside secs O) a) as [a'|] eqn:Ua; [|discriminate].
      destruct (unfold_expr A (outside secs O) b) as [b'|] eqn:Ub; [|discriminate].
      destruct (unfold_block B secs res (forget (intro_block body) A) O body) as [body'|] eqn:U; [|discriminate].
      destruct (loop_name B v) eqn:V; [|discriminate]. intros X. injection X as <-. apply loop_name_spec in V.
      cbn [intro_instr after]. rewrite !exec_for_eq. set (l := intro_block body) in *. set (A' := forget l A) in *.
      assert (WE : forall s1 s2, er A O s1 s2 -> ew (hidden A ++ l) (map hidden O) s1 s2) by (intros s1 s2; apply ew_mono, incl_appl, incl_refl).
      assert (RE : forall s1 s2, rl true A O s1 s2 -> ew (hidden A ++ l) (map hidden O) s1 s2) by (intros s1 s2 R; now apply WE, rl_er with (B := B) (w := true)).
      assert (WR : forall s1 s2, rl true A O s1 s2 -> rel true true A' O s1 s2) by (intros s1 s2; apply rel_weaker, weaker_forget).
      unfold guarded. eapply sim_bind; [eapply sim_weak; [intros s1 s2 X; exact X|intros s1 s2 X; exact X|exact WE|apply sim_proceed]|].
      intros [|]; [|eapply sim_weak; [intros s1 s2 X; exact X|exact WR|intros s1 s2 X; exact X|apply sim_ret]].
      unfold cycle_for_loop.
      eapply sim_bind; [eapply sim_weak; [intros s1 s2 X; exact X|intros s1 s2 X; exact X|exact WE|eapply sim_eval_ctl; eassumption]|]. intros va.
      eapply sim_bind; [eapply sim_weak; [intros s1 s2 X; exact X|intros s1 s2 X; exact X|exact WE|eapply sim_eval_ctl; eassumption]|]. intros vb.
      eapply sim_bind; [apply sim_lift, RE|]. intros za. eapply sim_bind; [apply sim_lift, RE|]. intros zb.
      assert (BD : sim (rel true true A' O) (rel true true A' O) (ew (hidden A ++ l) (map hidden O)) (exec_block en body) (exec_block en body')).
      { eapply sim_weak; [intros s1 s2 X; exact X| | |exact (IH A' O body' U)].
        - intros s1 s2. apply rel_weaker. apply weaker_forget_again.
        - intros s1 s2. apply ew_mono. intros x J. unfold A' in J. rewrite in_app_iff, hidden_forget in J. apply in_app_iff. tauto. }
      intros s1 s2 R. pose proof R as (Rs & _). rewrite (r_loops _ _ Rs). destruct (lget v (ps_loops s2)); [constructor; now apply RE|].
      refine (sim_bind _ _ _ _ _ _ _ _ _ (sim_iterate A' O _ v _ _ V BD (zrange za zb)) _ s1 s2 (WR _ _ R)). intros _.
      destruct (za <=? zb); [|apply sim_ret].
      apply sim_modify. intros t1 t2 Rt. exact (rel_loops _ _ _ _ _ _ _ _ _ _ (ldel v) Rt (fun q => nob_ldel B q v)).
    - (* conditional *)
      intros f IHf m IHm e IHe A O i'. rewrite unfold_if_eq. destruct (unfold_branch B secs res A O f) as [f'|] eqn:Uf; [|discriminate].
      destruct (unfold_branches B secs res A O m) as [m'|] eqn:Um; [|discriminate].
      destruct (unfold_block B secs res A O e) as [e'|] eqn:Ue; [|discriminate]. intros X. injection X as <-.
      cbn [intro_instr after]. rewrite !exec_if_eq. destruct (IHf _ _ _ Uf) as [T E].
      pose proof (IHm _ _ _ Um _ _ _ (IHe _ _ _ Ue)) as M. clear IHf IHm IHe.
      unfold guarded. eapply sim_bind; [eapply sim_weak; [intros s1 s2 X; exact X|intros s1 s2 X; exact X|intros s1 s2; apply ew_mono, incl_appl, incl_refl|apply sim_proceed]|].
      intros [|]; [|eapply sim_weak; [intros s1 s2 X; exact X|intros s1 s2; apply rel_weaker, weaker_forget|intros s1 s2 X; exact X|apply sim_ret]].
      eapply sim_bind.
      { eapply sim_weak; [intros s1 s2 X; exact X|intros s1 s2 X; exact X| |exact T]. intros s1 s2. apply ew_mono.
        intros x J. rewrite !in_app_iff in *. tauto. }
      intros [|].
      + eapply sim_weak; [intros s1 s2; apply rel_loose| | |exact E].
        * intros s1 s2. apply rel_weaker. apply weaker_forget_mono; [apply incl_appl, incl_refl|apply weaker_refl].
        * intros s1 s2. apply ew_mono. intros x J. rewrite !in_app_iff in *. tauto.
      + eapply sim_weak; [intros s1 s2 X; exact X| | |exact M].
        * intros s1 s2. apply rel_weaker. apply weaker_forget_mono; [apply incl_appr, incl_refl|apply weaker_refl].
        * intros s1 s2. apply ew_mono. intros x J. rewrite !in_app_iff in *. tauto.
    - (* empty block *)
      intros A O b' X. injection X as <-. cbn [intro_block]. eapply sim_weak; [intros s1 s2 X; exact X|intros s1 s2; apply nil_forget|intros s1 s2 X; exact X|apply sim_ret].
    - (* instruction and rest *)
      intros i IHi r IHr A O b' U. intros s1 s2 R. cbn [intro_block].
      assert (DONE : ps_look s1 = Some 0 -> outc strict (rel true true (forget (intro_instr i ++ intro_block r) A) O)
        (ew (hidden A ++ intro_instr i ++ intro_block r) (map hidden O)) (exec_block en (BCons i r) s1) (exec_block en b' s2)).
      { intros Z. pose proof R as (Rs & _). rewrite !block_done; [|rewrite <- (r_look _ _ Rs); exact Z|exact Z].
        constructor. eapply rel_weaker; [apply weaker_forget|exact R]. }
      destruct (match ps_look s1 with Some n => n =? 0 | None => false end) eqn:LK.
      { apply DONE. destruct (ps_look s1); [apply Z.eqb_eq in LK; now subst|discriminate]. }
      assert (GO : forall T (p : M T) k, mbind (should_proceed false) (fun b : bool => if b then p else k) s1 = p s1).
      { intros T p k. unfold mbind, should_proceed. destruct (ps_look s1) as [n|]; [rewrite LK|]; reflexivity. }
      assert (R1 : rl true A O s1 s2).
      { destruct R as (P1 & P2 & P3 & N & L & W & D). split; [exact P1|]. split; [exact P2|]. split; [exact P3|]. exists N.
        split; [exact L|]. split; [exact W|]. left. destruct D as [D|[_ D]]; [exact D|]. rewrite D in LK. discriminate. }
      assert (REST : forall r', unfold_block B secs res (after A i) O r = Some r' ->
        sim (rel true true (after A i) O) (rel true true (forget (intro_instr i ++ intro_block r) A) O)
        (ew (hidden A ++ intro_instr i ++ intro_block r) (map hidden O)) (exec_block en r) (exec_block en r')).
      { intros r' Ur. eapply sim_weak; [intros t1 t2 X; exact X| | |exact (IHr _ _ _ Ur)].
        - intros t1 t2. apply rel_weaker. apply weaker_after.
        - intros t1 t2. apply ew_mono. intros x J. pose proof (proj1 (weaker_after A i (intro_block r)) x) as WA.
          rewrite !hidden_forget, !in_app_iff in WA. rewrite !in_app_iff in *. tauto. }
      destruct (is_abbrev i) eqn:IA.
      + destruct i as [| | | | | | | | | | | |x e]; try discriminate. rewrite unfold_abbrev_eq in U.
        destruct (abbr_name B secs x) eqn:AN; [|discriminate]. rewrite exec_cons_eq, GO.
        change (exec en (IAbbrev x e)) with (guarded false (introduce x e)). unfold guarded. unfold mbind at 1. rewrite GO.
        pose proof (introduce_rel A O x e s1 s2 AN R1) as IR. destruct (introduce x e s1) as [[[]|err] t1].
        * destruct IR as [IR _]. exact (REST b' U t1 s2 IR).
        * destruct IR as [-> ST]. now apply o_coll.
      + rewrite unfold_cons_eq in U by exact IA. destruct (unfold_instr B secs res A O i) as [i'|] eqn:Ui; [|discriminate].
        destruct (unfold_block B secs res (after A i) O r) as [r'|] eqn:Ur; [|discriminate]. injection U as <-.
        rewrite !exec_cons_eq, GO. replace (ps_look s1) with (ps_look s2) in LK by (symmetry; exact (r_look _ _ (proj1 R))).
        replace (mbind (should_proceed false) (fun p : bool => if p then mbind (exec en i') (fun _ => exec_block en r') else ret tt) s2)
          with (mbind (exec en i') (fun _ => exec_block en r') s2).
        2:{ unfold mbind at 2, should_proceed. destruct (ps_look s2) as [n|]; [rewrite LK|]; reflexivity. }
        refine (sim_bind _ _ _ _ _ _ _ _ _ _ (fun _ => REST r' eq_refl) s1 s2 R1).
        eapply sim_weak; [intros t1 t2 X; exact X|intros t1 t2 X; exact X| |exact (IHi _ _ _ Ui)].
        intros t1 t2. apply ew_mono. intros x J. rewrite !in_app_iff in *. tauto.
    - (* branch *)
      intros c la body IH A O br' U. cbn [intro_branch]. destruct la as [k|].
      + rewrite unfold_look_eq in U. destruct (unfold_cond (forget (hidden A ++ intro_block body) []) (outside secs O) c) as [c'|] eqn:Uc; [|discriminate].
        destruct (unfold_expr A (outside secs O) k) as [k'|] eqn:Uk; [|discriminate].
        destruct (unfold_block B secs res A O body) as [b'|] eqn:Ub; [|discriminate]. injection U as <-. rewrite !test_branch_eq, !exec_branch_eq.
        split; [|now apply IH]. eapply sim_look; [|exact Uc|exact Uk|]; [apply incl_appl, incl_refl|].
        eapply sim_weak; [intros s1 s2 X; exact X| |intros s1 s2 X; exact X|exact (IH _ _ _ Ub)].
        intros s1 s2. apply rel_ew. intros x J. apply hidden_forget in J. apply in_app_iff. tauto.
      + rewrite unfold_branch_eq in U. destruct (unfold_cond A (outside secs O) c) as [c'|] eqn:Uc; [|discriminate].
        destruct (unfold_block B secs res A O body) as [b'|] eqn:Ub; [|discriminate]. injection U as <-. rewrite !test_branch_eq, !exec_branch_eq.
        split; [|now apply IH]. eapply sim_weak; [intros s1 s2 X; exact X|intros s1 s2 X; exact X| |exact (sim_plain_test A O c c' Uc)].
        intros s1 s2. apply ew_mono, incl_appl, incl_refl.
    - (* no more branches *)
      intros A O r' X l m1 m2 H. injection X as <-. cbn [intro_branches app]. rewrite !exec_rnil_eq.
      eapply sim_weak; [intros s1 s2; apply rel_loose|intros s1 s2 X; exact X|intros s1 s2 X; exact X|exact H].
    - (* more branches *)
      intros b IHb r IHr A O r' U l m1 m2 H. rewrite unfold_rcons_eq in U. destruct (unfold_branch B secs res A O b) as [b'|] eqn:Ub; [|discriminate].
      destruct (unfold_branches B secs res A O r) as [q|] eqn:Ur; [|discriminate]. injection U as <-. cbn [intro_branches]. rewrite !exec_rcons_eq.
      destruct (IHb _ _ _ Ub) as [T E]. pose proof (IHr _ _ _ Ur _ _ _ H) as M. clear IHb IHr.
      eapply sim_bind.
      { eapply sim_weak; [intros s1 s2 X; exact X|intros s1 s2 X; exact X| |exact T]. intros s1 s2. apply ew_mono.
        intros x J. rewrite !in_app_iff in *. tauto. }
      intros [|].
      + eapply sim_weak; [intros s1 s2; apply rel_loose| | |exact E].
        * intros s1 s2. apply rel_weaker. apply weaker_forget_mono; [intros x J; rewrite !in_app_iff; tauto|apply weaker_refl].
        * intros s1 s2. apply ew_mono. intros x J. rewrite !in_app_iff in *. tauto.
      + eapply sim_weak; [intros s1 s2 X; exact X| | |exact M].
        * intros s1 s2. apply rel_weaker. apply weaker_forget_mono; [intros x J; rewrite !in_app_iff in *; tauto|apply weaker_refl].
        * intros s1 s2. apply ew_mono. intros x J. rewrite !in_app_iff in *. tauto.
  Qed.

  (** ** A section of a tape *)

  Lemma sim_run b b' : unfold_block B secs res [] [] b = Some b' ->
    sim (rl false [] []) (rl false [] []) (ew (intro_block b) []) (run_section en b) (run_section en b').
  Proof.
    intros U. unfold run_section. eapply sim_bind; [apply sim_modify; intros a c; apply rel_init|]. intros _.
    eapply sim_bind.
    { eapply sim_weak; [|intros a c X; exact X| |exact (proj1 (proj2 sim_recipe) b [] [] b' U)].
      - intros a c. apply rel_loose.
      - intros a c X. exact X. }
    intros _. eapply sim_weak; [intros a c X; exact X|intros a c X; exact X| |apply sim_remove].
    intros a c. cbn [map]. apply ew_mono. intros x J. apply hidden_forget in J. destruct J as [J|[]]. exact J.
  Qed.
  Lemma rel_reset o lines d : dtidy res strict d -> rl false [] [] (reset_state o lines d) (reset_state o lines d).
  Proof.
    intros T. split; [constructor; reflexivity|]. split; [exact I|]. split; [intros x _; reflexivity|]. exists [].
    split; [now apply lvn_same|]. split; [discriminate|]. left. intros x a M. discriminate M.
  Qed.

  Lemma parse_same b b' o lines : unfold_block B secs res [] [] b = Some b' ->
    parse_recipe en b o lines = parse_recipe en b' o lines \/
    strict = false /\ fst (parse_recipe en b o lines) = Err AbbreviationNameCollisionError.
  Proof.
    intros U. unfold parse_recipe.
    assert (T : dtidy res strict []) by constructor.
    destruct (sim_run b b' U _ _ (rel_reset o lines [] T)) as [a t1 t2 R|e t1 t2 [R _]|t1 r ST].
    - left. destruct R as (Rs & _ & _ & N & L & _). destruct (lvn_nil _ _ _ _ _ _ _ L) as (_ & -> & _). now rewrite (r_opts _ _ Rs).
    - left. now rewrite (r_opts _ _ R).
    - right. auto.
  Qed.

  Lemma write_same explain b b' o mf mt d : unfold_block B secs res [] [] b = Some b' -> dtidy res strict d ->
    let w := write_recipe en explain b o mf mt d in
    let w' := write_recipe en explain b' o mf mt d in
    fst w = fst w' /\ ((exists r, fst w' = Ok r) -> snd w = snd w') \/
    strict = false /\ fst w = Err AbbreviationNameCollisionError.
  Proof.
    intros U T. cbv zeta. unfold write_recipe.
    assert (SD : forall k z d, ctrl_nameb k = true -> dtidy res strict d -> dtidy res strict (fst (set_ctrl_default k z d))).
    { intros k z d0 C T0. unfold set_ctrl_default. destruct (dget (KStr k) d0); [exact T0|]. cbn [fst].
      apply dtidy_set; [exact (K_ctrl res strict Hres k C)|constructor|exact T0]. }
    pose proof (SD $"MF" mf d eq_refl T) as T1. destruct (set_ctrl_default $"MF" mf d) as [d1 ok1]. cbn [fst] in T1.
    destruct (negb ok1); [left; auto|].
    pose proof (SD $"MT" mt d1 eq_refl T1) as T2. destruct (set_ctrl_default $"MT" mt d1) as [d2 ok2]. cbn [fst] in T2.
    destruct (negb ok2); [left; auto|].
    destruct (sim_run b b' U _ _ (rel_reset o [] d2 T2)) as [a t1 t2 R|e t1 t2 [R _]|t1 r ST].
    - left. destruct R as (Rs & F & _ & N & L & _). destruct (lvn_nil _ _ _ _ _ _ _ L) as (_ & -> & _).
      cbn [frs] in F. destruct (ps_up t1), (ps_up t2); try tauto. rewrite (r_lines _ _ Rs).
      destruct (unwind 0 [] (ps_dic t2)). auto.
    - left. destruct (unwind 0 (ps_up t1) (ps_dic t1)), (unwind 0 (ps_up t2) (ps_dic t2)). cbn [fst snd]. split; [reflexivity|].
      intros (r & X). discriminate X.
    - right. destruct (unwind 0 (ps_up t1) (ps_dic t1)). destruct r as [r s]. cbn [fst]. auto.
  Qed.
End Sim.

Lemma data_tidy l : forall v, data l v -> tidy l true v.
Proof.
  fix IH 2. intros v H. destruct H as [n|s|vs H|d H|]; constructor.
  - revert vs H. fix IHl 2. intros vs [|v vs' H1 H2]; constructor; [now apply IH|now apply IHl].
  - revert d H. fix IHl 2. intros d [|[k v] d' [H1 H1'] H2]; constructor; [|now apply IHl]. cbn [fst snd] in *. split; [|now apply IH].
    destruct k; cbn [KK]; [exact I|]. intros _. now apply H1.
Qed.
Lemma tidy_less l : forall v, tidy l true v -> tidy l false v.
Proof.
  fix IH 2. intros v H. destruct H as [n|s|vs H|d H| | |ns]; constructor.
  - revert vs H. fix IHl 2. intros vs [|v vs' H1 H2]; constructor; [now apply IH|now apply IHl].
  - revert d H. fix IHl 2. intros d [|[k v] d' [H1 H1'] H2]; constructor; [|now apply IHl]. cbn [fst snd] in *. split; [|now apply IH].
    destruct k; cbn [KK]; [exact I|intros X; discriminate X].
Qed.

Lemma unfolded_parse en b b' o lines : e_depth en <> O -> unfolded b = Some b' ->
  parse_recipe en b o lines = parse_recipe en b' o lines \/ fst (parse_recipe en b o lines) = Err AbbreviationNameCollisionError.
Proof.
  intros D U. destruct (e_depth en) as [|dp] eqn:E; [congruence|].
  destruct (parse_same en (abbrs_block b) (sections_block b) [] false dp E (fun x X => match X with end) (fun X => ltac:(discriminate X)) b b' o lines U) as [H|[_ H]]; auto.
Qed.
Lemma strict_res b b' : unfolded_strictly b = Some b' ->
  unfold_block (abbrs_block b) (sections_block b) (abbrs_block b) [] [] b = Some b' /\
  forall x, In x (abbrs_block b) -> internalb x = false /\ ctrl_nameb x = false.
Proof.
  unfold unfolded_strictly. destruct (forallb _ _) eqn:F; [|discriminate]. intros U. split; [exact U|].
  intros x J. rewrite forallb_forall in F. specialize (F x J). unfold abbr_name in F. rewrite !andb_true_iff, !negb_true_iff in F. tauto.
Qed.
Lemma strictly_parse en b b' o lines : e_depth en <> O -> unfolded_strictly b = Some b' ->
  parse_recipe en b o lines = parse_recipe en b' o lines.
Proof.
  intros D U. destruct (e_depth en) as [|dp] eqn:E; [congruence|]. destruct (strict_res _ _ U) as [U' R].
  destruct (parse_same en (abbrs_block b) (sections_block b) (abbrs_block b) true dp E R (fun _ => incl_refl _) b b' o lines U') as [H|[H _]]; [exact H|discriminate H].
Qed.
Lemma unfolded_write en explain b b' o mf mt d : e_depth en <> O -> unfolded b = Some b' -> data [] (VDict d) ->
  let w := write_recipe en explain b o mf mt d in
  let w' := write_recipe en explain b' o mf mt d in
  fst w = fst w' /\ ((exists r, fst w' = Ok r) -> snd w = snd w') \/ fst w = Err AbbreviationNameCollisionError.
Proof.
  intros D U T. destruct (e_depth en) as [|dp] eqn:E; [congruence|]. apply data_tidy, tidy_less, dtidy_val in T.
  destruct (write_same en (abbrs_block b) (sections_block b) [] false dp E (fun x X => match X with end) (fun X => ltac:(discriminate X)) explain b b' o mf mt d U T) as [H|[_ H]]; auto.
Qed.
Lemma strictly_write en explain b b' o mf mt d : e_depth en <> O -> unfolded_strictly b = Some b' -> data (abbrs_block b) (VDict d) ->
  let w := write_recipe en explain b o mf mt d in
  let w' := write_recipe en explain b' o mf mt d in
  fst w = fst w' /\ ((exists r, fst w' = Ok r) -> snd w = snd w').
Proof.
  intros D U T. destruct (e_depth en) as [|dp] eqn:E; [congruence|]. destruct (strict_res _ _ U) as [U' R]. apply data_tidy, dtidy_val in T.
  destruct (write_same en (abbrs_block b) (sections_block b) (abbrs_block b) true dp E R (fun _ => incl_refl _) explain b b' o mf mt d U' T) as [H|[H _]]; [exact H|discriminate H].
Qed.

(** no abbreviations are left *)
Lemma unfold_none B secs res :
  (forall i A O i', unfold_instr B secs res A O i = Some i' -> abbrs_instr i' = []) /\
  (forall b A O b', unfold_block B secs res A O b = Some b' -> abbrs_block b' = []) /\
  (forall b A O b', unfold_branch B secs res A O b = Some b' -> abbrs_branch b' = []) /\
  (forall r A O r', unfold_branches B secs res A O r = Some r' -> abbrs_branches r' = []).
Proof.
  apply recipe_mut.
  - intros h cs f A O i'. cbn [unfold_instr]. destruct (unfold_fields res A f); [|discriminate]. intros X. now injection X as <-.
  - intros cs f A O i'. cbn [unfold_instr]. destruct (forallb _ f); [|discriminate]. intros X. now injection X as <-.
  - intros cs a b c d A O i'. cbn [unfold_instr]. do 4 (destruct (unfold_expr A res _); [|discriminate]). intros X. now injection X as <-.
  - intros cs a b c d A O i'. cbn [unfold_instr]. do 3 (destruct (unfold_expr A res _); [|discriminate]).
    destruct (unfold_expr A _ d); [|discriminate]. intros X. now injection X as <-.
  - intros cs f x y name A O i'. cbn [unfold_instr]. destruct (table_ok B secs res A name && _); [|discriminate].
    do 4 (destruct (unfold_expr A res _); [|discriminate]). intros X. now injection X as <-.
  - intros cs f name A O i'. cbn [unfold_instr]. destruct (table_ok B secs res A name && _); [|discriminate].
    do 5 (destruct (unfold_expr A res _); [|discriminate]). intros X. now injection X as <-.
  - intros cs f body name A O i'. cbn [unfold_instr]. destruct (table_ok B secs res A name); [|discriminate].
    destruct (unfold_fields res A f); [|discriminate]. destruct (unfold_list _ _ _ _ body); [|discriminate]. intros X. now injection X as <-.
  - intros A O i' X. now injection X as <-.
  - intros A O i' X. now injection X as <-.
  - intros h t b IH A O i'. rewrite unfold_section_eq. destruct (section_name _ _ _ _ _); [|discriminate].
    destruct (unfold_block _ _ _ _ _ b) eqn:U; [|discriminate]. intros X. injection X as <-. exact (IH _ _ _ U).
  - intros v a b body IH A O i'. rewrite unfold_for_eq. destruct (unfold_expr A _ a); [|discriminate]. destruct (unfold_expr A _ b); [|discriminate].
    destruct (unfold_block _ _ _ _ _ body) eqn:U; [|discriminate]. destruct (loop_name B v); [|discriminate]. intros X. injection X as <-. exact (IH _ _ _ U).
  - intros f IHf m IHm e IHe A O i'. rewrite unfold_if_eq. destruct (unfold_branch _ _ _ _ _ f) eqn:Uf; [|discriminate].
    destruct (unfold_branches _ _ _ _ _ m) eqn:Um; [|discriminate]. destruct (unfold_block _ _ _ _ _ e) eqn:Ue; [|discriminate].
    intros X. injection X as <-. change (abbrs_branch b ++ abbrs_branches b0 ++ abbrs_block b1 = []).
    now rewrite (IHf _ _ _ Uf), (IHm _ _ _ Um), (IHe _ _ _ Ue).
  - intros x e A O i' X. discriminate X.
  - intros A O b' X. now injection X as <-.
  - intros i IHi r IHr A O b' U. destruct (is_abbrev i) eqn:IA.
    + destruct i; try discriminate IA. rewrite unfold_abbrev_eq in U. destruct (abbr_name _ _ _); [|discriminate]. exact (IHr _ _ _ U).
    + rewrite unfold_cons_eq in U by exact IA. destruct (unfold_instr _ _ _ _ _ i) eqn:Ui; [|discriminate].
      destruct (unfold_block _ _ _ _ _ r) eqn:Ur; [|discriminate]. injection U as <-. change (abbrs_instr i0 ++ abbrs_block b = []).
      now rewrite (IHi _ _ _ Ui), (IHr _ _ _ Ur).
  - intros c la body IH A O br' U. destruct la as [k|].
    + rewrite unfold_look_eq in U. destruct (unfold_cond _ _ c); [|discriminate]. destruct (unfold_expr _ _ k); [|discriminate].
      destruct (unfold_block _ _ _ _ _ body) eqn:Ub; [|discriminate]. injection U as <-. exact (IH _ _ _ Ub).
    + rewrite unfold_branch_eq in U. destruct (unfold_cond _ _ c); [|discriminate].
      destruct (unfold_block _ _ _ _ _ body) eqn:Ub; [|discriminate]. injection U as <-. exact (IH _ _ _ Ub).
  - intros A O r' X. now injection X as <-.
  - intros b IHb r IHr A O r' U. rewrite unfold_rcons_eq in U. destruct (unfold_branch _ _ _ _ _ b) eqn:Ub; [|discriminate].
    destruct (unfold_branches _ _ _ _ _ r) eqn:Ur; [|discriminate]. injection U as <-. change (abbrs_branch b0 ++ abbrs_branches b1 = []).
    now rewrite (IHb _ _ _ Ub), (IHr _ _ _ Ur).
Qed.
Lemma unfolded_none b b' : unfolded b = Some b' -> abbrs_block b' = [].
Proof. exact (proj1 (proj2 (unfold_none _ _ _)) b [] [] b'). Qed.
