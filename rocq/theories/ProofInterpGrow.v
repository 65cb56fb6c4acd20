(** A parser object only gets more lenient, whatever happens (C08). *)
From Coq Require Import Ascii String ZArith QArith Bool Lia List.
From Verif Require Import PyBase PyFloat ModelFortran ModelRecords ModelTape ModelNum ModelRecipe ModelInterp ModelParser.
From Verif Require Import SpecFields SpecTape SpecInterp ProofPyBase ProofTape ProofTapeWrite ProofTapeParse ProofInterp ProofInterpFrame ProofInterpMono ProofInterpOpt.
Import ListNotations.
Open Scope Z_scope.

Lemma lenient_refl o : lenient o o.
Proof. repeat split; auto. Qed.
Lemma lenient_trans a b c : lenient a b -> lenient b c -> lenient a c.
Proof. intros (A1 & A2 & A3 & A4 & A5) (B1 & B2 & B3 & B4 & B5). repeat split; auto. congruence. Qed.
Lemma lenient_ignored o : lenient o (all_ignored o).
Proof. repeat split; auto. Qed.

(** the options are at least as lenient afterwards *)
Definition grow {A} (m : M A) : Prop := forall s, lenient (ps_opts s) (ps_opts (snd (m s))).
Lemma grow_keep {A} (m : M A) : okeep m -> grow m.
Proof. intros H s. rewrite H. apply lenient_refl. Qed.
Lemma grow_bind {A B} (m : M A) (f : A -> M B) : grow m -> (forall a, grow (f a)) -> grow (mbind m f).
Proof.
  intros Hm Hf s. unfold mbind. specialize (Hm s). destruct (m s) as [[a|e] s1]; cbn [snd] in *; [|exact Hm].
  exact (lenient_trans _ _ _ Hm (Hf a s1)).
Qed.
Lemma grow_ret {A} (a : A) : grow (ret a).
Proof. apply grow_keep, okeep_ret. Qed.

Section Grow.
  Variable en : env.
  Lemma grow_if c la body : grow body -> grow (if_statement en c la body).
  Proof.
    intros Hb. unfold if_statement. destruct la as [k|]; [|apply grow_keep, okeep_get].
    destruct (e_write en); [apply grow_keep, okeep_get|].
    apply grow_bind; [apply grow_keep; apply (okeep_get (fun s => fst (eval_ctl en k s)))|]. intros v.
    apply grow_bind; [apply grow_keep, (okeep_get (fun _ => int_of_val ValueError v))|]. intros n s.
    destruct (ps_look s); [apply lenient_refl|]. cbn zeta.
    specialize (Hb (set_look (Some n) (set_opts (all_ignored (ps_opts s)) s))).
    change (ps_opts (set_look (Some n) (set_opts (all_ignored (ps_opts s)) s))) with (all_ignored (ps_opts s)) in Hb.
    destruct (body _) as [r s2]. cbn [snd] in Hb.
    assert (L : lenient (ps_opts s) (ps_opts s2)) by exact (lenient_trans _ _ _ (lenient_ignored _) Hb).
    assert (G : lenient (ps_opts s) (ps_opts (snd
      (let '(up, d) := unwind (length (ps_up s)) (ps_up (set_look None s2)) (ps_dic (set_look None s2)) in
       match truthvalue en {| sc_dic := d; sc_up := up; sc_loops := ps_loops (set_look None s2) |} c with
       | Ok b => (Ok b, s)
       | Err e => (Err e, set_look None s2)
       end)))).
    { destruct (unwind _ _ _) as [up d]. destruct (truthvalue _ _ _); cbn [snd]; [apply lenient_refl|exact L]. }
    destruct r as [u|e]; [exact G|]. destruct e; try exact L. exact G.
  Qed.
  Lemma grow_guarded b m : grow m -> grow (guarded b m).
  Proof. 
    intros Hm. unfold guarded, if_proceed. apply grow_bind; [apply grow_keep, okeep_proceed|]. intros [|]; [exact Hm|apply grow_ret].
  Qed.
  Lemma grow_iterate v body : grow body -> forall l, grow (iterate v l body).
  Proof.
    intros Hb. induction l as [|i r IH]; cbn [iterate]; [apply grow_ret|].
    apply grow_bind; [apply grow_keep, okeep_modify; reflexivity|]. intros _. apply grow_bind; [exact Hb|]. intros _. exact IH.
  Qed.
  Lemma grow_for v a b body : grow body -> grow (cycle_for_loop en v a b body).
  Proof.
    intros Hb. unfold cycle_for_loop.
    repeat (apply grow_bind; [apply grow_keep; first [apply (okeep_get (fun s => fst (eval_ctl en a s))) | apply (okeep_get (fun s => fst (eval_ctl en b s))) | apply (okeep_get (fun _ => _))]|intros ?]).
    intros s. destruct (lget _ _); [apply lenient_refl|].
    revert s. match goal with |- forall s, lenient _ (ps_opts (snd (?m s))) => change (grow m) end.
    apply grow_bind; [apply grow_iterate; exact Hb|]. intros _. apply grow_keep. destruct (_ <=? _); [apply okeep_modify; reflexivity|apply okeep_ret].
  Qed.
  Theorem exec_grow :
    (forall i, grow (exec en i)) /\ (forall b, grow (exec_block en b)) /\
    (forall b, grow (exec_branch en b) /\ grow (test_branch en b)) /\
    (forall r els, grow els -> grow (exec_branches en r els)).
  Proof.
    apply recipe_mut; intros;
      rewrite ?exec_section_eq, ?exec_for_eq, ?exec_if_eq, ?exec_cons_eq, ?exec_nil_eq, ?exec_branch_eq,
        ?exec_rcons_eq, ?test_branch_eq.
    - apply grow_guarded, grow_keep, okeep_do_cont.
    - apply grow_guarded, grow_keep, okeep_do_text.
    - apply grow_guarded, grow_keep, okeep_do_dir.
    - apply grow_guarded, grow_keep, okeep_do_intg.
    - apply grow_guarded, grow_keep, okeep_do_tab1.
    - apply grow_guarded, grow_keep, okeep_do_tab2.
    - apply grow_guarded, grow_keep, okeep_do_list.
    - apply grow_guarded, grow_keep, okeep_do_send.
    - apply grow_guarded, grow_keep, okeep_do_stop.
    - apply grow_guarded. destruct (negb _); [apply grow_keep, okeep_fail|].
      apply grow_bind; [apply grow_keep, okeep_open|]. intros _.
      apply grow_bind; [apply grow_keep, okeep_modify; reflexivity|]. intros _.
      apply grow_bind; [apply H|]. intros _.
      apply grow_bind; [apply grow_keep, okeep_remove|]. intros _. apply grow_keep, okeep_close.
    - apply grow_guarded, grow_for. apply H.
    - apply grow_guarded. apply grow_bind; [apply H|]. intros [|]; [apply H | apply H0; apply H1].
    - apply grow_guarded, grow_keep, okeep_introduce.
    - apply grow_ret.
    - apply grow_bind; [apply grow_keep, okeep_proceed|]. intros [|]; [|apply grow_ret].
      apply grow_bind; [apply H|]. intros _. apply H0.
    - split; [apply H | apply grow_if, H].
    - rewrite exec_rnil_eq. assumption.
    - apply grow_bind; [apply H|]. intros [|]; [apply H | apply H0; assumption].
  Qed.
  Lemma run_section_grow b : grow (run_section en b).
  Proof.
    unfold run_section. apply grow_bind; [apply grow_keep, okeep_modify; reflexivity|]. intros _.
    apply grow_bind; [apply exec_grow|]. intros _. apply grow_keep, okeep_remove.
  Qed.
End Grow.

Section Driver.
  Context {P D : Type}.
  Variable pr : P -> Z -> Z -> list str -> result D * P.
  Variable has : Z -> Z -> bool.
  Variables (ro : ropts) (wo : wopts) (nofail : bool) (exc inc : selection).
  Variable R : P -> P -> Prop.
  Hypothesis Refl : forall p, R p p.
  Hypothesis Trans : forall p q r, R p q -> R q r -> R p r.
  Hypothesis Step : forall p mf mt ls, R p (snd (pr p mf mt ls)).
  Lemma sec_rel p mf mt ls : R p (snd (parse_section pr has ro wo nofail exc inc p mf mt ls)).
  Proof.
    unfold parse_section. destruct (bind _ _) as [a|]; [|apply Refl].
    destruct (has mf mt && negb _); [|apply Refl]. destruct (write_send _ _ _) as [a0|]; [|apply Refl].
    specialize (Step p mf mt (ls ++ a0)). destruct (pr p mf mt _) as [[d|e] p1]; exact Step.
  Qed.
  Lemma mts_rel mf : forall mts p, R p (snd (parse_mts pr has ro wo nofail exc inc p mf mts)).
  Proof.
    induction mts as [|[mt ls] r IH]; cbn [parse_mts]; intros p; [apply Refl|].
    pose proof (sec_rel p mf mt ls) as E. destruct (parse_section _ _ _ _ _ _ _ _ _ _ _) as [[y|e] p1]; cbn [snd] in E; [|exact E].
    specialize (IH p1). destruct (parse_mts _ _ _ _ _ _ _ _ _ r) as [[z|e] p2]; exact (Trans _ _ _ E IH).
  Qed.
  Lemma mfs_rel : forall mfs p, R p (snd (parse_mfs pr has ro wo nofail exc inc p mfs)).
  Proof.
    induction mfs as [|[mf ls] r IH]; cbn [parse_mfs]; intros p; [apply Refl|].
    pose proof (mts_rel mf ls p) as E. destruct (parse_mts _ _ _ _ _ _ _ _ _ _) as [[y|e] p1]; cbn [snd] in E; [|exact E].
    specialize (IH p1). destruct (parse_mfs _ _ _ _ _ _ _ _ r) as [[z|e] p2]; exact (Trans _ _ _ E IH).
  Qed.
  Lemma tape_rel lines p : R p (snd (parse_tape pr has ro wo nofail exc inc p lines)).
  Proof. unfold parse_tape. destruct (split_sections ro lines); [apply mfs_rel | apply Refl]. Qed.
End Driver.

Theorem parse_grow p o nofail exc inc lines : lenient o (snd (parse p nofail exc inc o lines)).
Proof.
  apply (tape_rel (parse_one p) (has_recipe (p_recipes p)) (p_ro p) (p_wo p) nofail exc inc lenient); [apply lenient_refl|apply lenient_trans|]. intros q mf mt ls. unfold parse_one.
  destruct (find_recipe _ _ _) as [b|]; [|apply lenient_refl]. unfold parse_recipe.
  pose proof (run_section_grow (read_env (p_ro p) (p_wo p) (p_depth p)) b (reset_state q ls [])) as K.
  destruct (run_section _ _ _) as [[u|e] s1]; exact K.
Qed.
Theorem history_grow p : forall cs o, lenient o (after_calls p o cs).
Proof.
  unfold after_calls. induction cs as [|c cs IH]; intros o; cbn [fold_left]; [apply lenient_refl|].
  exact (lenient_trans _ _ _ (parse_grow p o _ _ _ _) (IH (after_call p o c))).
Qed.
Theorem history_accepts p cs o exc inc lines d o1 : parse p false exc inc o lines = (Ok d, o1) ->
  parse p false exc inc (after_calls p o cs) lines = (Ok d, after_calls p o cs).
Proof. intros H. exact (parse_monotone p exc inc o _ lines d o1 (history_grow p cs o) H). Qed.
