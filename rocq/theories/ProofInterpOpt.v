(** What holds of the state after every outcome (C08, C33). *)
From Coq Require Import Ascii String ZArith QArith Bool Lia List.
From Verif Require Import PyBase PyFloat ModelFortran ModelRecords ModelTape ModelNum ModelRecipe ModelInterp ModelParser.
From Verif Require Import SpecFields SpecTape SpecInterp ProofPyBase ProofTape ProofTapeWrite ProofTapeParse ProofInterp ProofInterpFrame ProofInterpMono.
Import ListNotations.
Open Scope Z_scope.

(** the options are the same afterwards *)
Definition okeep {A} (m : M A) : Prop := forall s, ps_opts (snd (m s)) = ps_opts s.

Lemma okeep_bind {A B} (m : M A) (f : A -> M B) : okeep m -> (forall a, okeep (f a)) -> okeep (mbind m f).
Proof.
  intros Hm Hf s. unfold mbind. specialize (Hm s). destruct (m s) as [[a|e] s1]; cbn [snd] in *; [|exact Hm].
  rewrite Hf. exact Hm.
Qed.
Lemma okeep_free {A} (m : M A) : optfree m -> okeep m.
Proof. intros H s. exact (proj2 (H s (ps_opts s))). Qed.
Lemma okeep_ret {A} (a : A) : okeep (ret a).
Proof. intros s; reflexivity. Qed.
Lemma okeep_fail {A} e : okeep (@fail A e).
Proof. intros s; reflexivity. Qed.
Lemma okeep_get {A} (f : pstate -> result A) : okeep (fun s => (f s, s)).
Proof. intros s; reflexivity. Qed.
Lemma okeep_modify f : (forall s, ps_opts (f s) = ps_opts s) -> okeep (modify f).
Proof. intros H s. apply H. Qed.

Section Opt.
  Variable en : env.

  Lemma okeep_set_var u v : okeep (set_var u v).
  Proof. apply okeep_free, optfree_set_var. Qed.
  Lemma okeep_map_field src e : okeep (map_field en src e).
  Proof.
    intros s. unfold map_field. destruct (eval_expr _ _ _ _ _ _) as [[[c k] [u|]]|er].
    - destruct (solve _ _ _ _) as [v|er]; [|reflexivity].
      apply (okeep_bind _ _ (okeep_set_var u v)). intros. apply okeep_ret.
    - destruct (negb _); [reflexivity|]. destruct (check_value _ _ _ _); reflexivity.
    - destruct er; reflexivity.
  Qed.
  Lemma okeep_map_read fs : okeep (map_read en fs).
  Proof.
    unfold map_read. generalize 3%nat as n. induction n as [|n IH]; cbn [map_tries]; [apply okeep_fail|].
    apply okeep_bind.
    - clear. induction fs as [|[src e] r IH]; cbn [map_fields]; [apply okeep_ret|].
      apply okeep_bind; [apply okeep_map_field|]. intros a. apply okeep_bind; [exact IH|]. intros; apply okeep_ret.
    - intros [|]; [exact IH | apply okeep_ret].
  Qed.
  Lemma okeep_read_with {A} (rd : list str -> nat -> result (A * nat)) : okeep (read_with rd).
  Proof. intros s. unfold read_with. destruct (skip_blank_lines _ _); [|reflexivity]. destruct (rd _ _) as [[? ?]|]; reflexivity. Qed.
  Lemma okeep_write_with r : okeep (write_with r).
  Proof. intros s. unfold write_with. destruct (r s); reflexivity. Qed.
  Lemma okeep_text_read fs : forall full pos, okeep (text_read fs full pos).
  Proof.
    induction fs as [|[u len] r IH]; intros full pos; cbn [text_read]; [apply okeep_ret|].
    destruct (Nat.leb _ _); [apply okeep_fail|]. apply okeep_bind; [|intros _; apply IH].
    destruct u; [apply okeep_set_var | apply okeep_ret].
  Qed.
  Lemma okeep_proceed b : okeep (should_proceed b).
  Proof. intros s. unfold should_proceed. destruct (ps_look s); [|reflexivity]. destruct (_ =? 0); [reflexivity|]. destruct b; reflexivity. Qed.
  Lemma okeep_open u : okeep (open_section en u).
  Proof. intros s. destruct u as [x ix]. unfold open_section. destruct (bind _ _) as [[[i n] d]|]; reflexivity. Qed.
  Lemma okeep_close : okeep close_section.
  Proof. intros s. unfold close_section. destruct (ps_up s); reflexivity. Qed.
  Lemma okeep_in_section {A} name (m : M A) : okeep m -> okeep (in_section en name m).
  Proof.
    intros Hm. unfold in_section. destruct name; [|exact Hm].
    apply okeep_bind; [apply okeep_open|]. intros _. apply okeep_bind; [exact Hm|]. intros a.
    apply okeep_bind; [apply okeep_close|]. intros _. apply okeep_ret.
  Qed.
  Lemma okeep_if_proceed {A} (d : A) m : okeep m -> okeep (if_proceed d m).
  Proof. intros Hm. unfold if_proceed. apply okeep_bind; [apply okeep_proceed|]. intros [|]; [exact Hm | apply okeep_ret]. Qed.

  Ltac ostep :=
    match goal with
    | |- okeep (mbind _ _) => apply okeep_bind
    | |- okeep (ret _) => apply okeep_ret
    | |- okeep (fail _) => apply okeep_fail
    | |- okeep (lift ?r) => apply (okeep_get (fun _ => r))
    | |- okeep (map_read _ _) => apply okeep_map_read
    | |- okeep (map_write en ?es) => apply (okeep_get (fun s => fst (map_write en es s)))
    | |- okeep (eval_ctl en ?e) => apply (okeep_get (fun s => fst (eval_ctl en e s)))
    | |- okeep (check_spec_read _ _) => unfold check_spec_read
    | |- okeep (check_spec_write ?cs) => apply (okeep_get (fun s => fst (check_spec_write cs s)))
    | |- okeep (update_ctrl _) => apply okeep_modify; reflexivity
    | |- okeep (text_read _ _ _) => apply okeep_text_read
    | |- okeep (read_with _) => apply okeep_read_with
    | |- okeep (write_with _) => apply okeep_write_with
    | |- okeep (should_proceed _) => apply okeep_proceed
    | |- okeep (in_section _ _ _) => apply okeep_in_section
    | |- okeep (if_proceed _ _) => apply okeep_if_proceed
    | |- okeep (modify _) => apply okeep_modify; reflexivity
    | |- okeep (fun s => (_, s)) => apply okeep_get
    | |- okeep (let '(_, _) := ?x in _) => destruct x
    | |- okeep (if ?b then _ else _) => destruct b
    | |- forall _, _ => intros ?
    end.

  Lemma okeep_iterate v body : okeep body -> forall l, okeep (iterate v l body).
  Proof. intros Hb. induction l as [|i r IH]; cbn [iterate]; repeat ostep; assumption. Qed.
  Lemma okeep_iterate_l v (body : LM) : (forall ls, okeep (body ls)) -> forall l ls, okeep (iterate_l v l body ls).
  Proof. intros Hb. induction l as [|i r IH]; intros ls; cbn [iterate_l]; repeat ostep; auto. Qed.
  Lemma okeep_for v a b body : okeep body -> okeep (cycle_for_loop en v a b body).
  Proof.
    intros Hb. unfold cycle_for_loop. repeat ostep. intros s. destruct (lget _ _); [reflexivity|].
    revert s. change (okeep (run _ <- iterate v (zrange a2 a3) body;
      if a2 <=? a3 then modify (fun s => set_loops (ldel v (ps_loops s)) s) else ret tt)).
    apply okeep_bind; [apply okeep_iterate; exact Hb|]. repeat ostep.
  Qed.
  Lemma okeep_lfor v a b (body : LM) : (forall ls, okeep (body ls)) -> forall ls, okeep (cycle_list_loop en v a b body ls).
  Proof.
    intros Hb ls. unfold cycle_list_loop. repeat ostep. intros s. destruct (lget _ _); [reflexivity|].
    revert s. change (okeep (run r <- iterate_l v (zrange a2 a3) body ls;
      run _ <- (if a2 <=? a3 then modify (fun s => set_loops (ldel v (ps_loops s)) s) else ret tt); ret r)).
    apply okeep_bind; [apply okeep_iterate_l; exact Hb|]. repeat ostep.
  Qed.
  Lemma okeep_list : (forall i ls, okeep (list_item en i ls)) /\ (forall b ls, okeep (list_body en b ls)).
  Proof.
    apply lrecipe_mut.
    - intros e [vals pos]. cbn [list_item]. unfold list_expr. case (e_write en).
      + ostep; [ostep|]. intros [|v [|]]; repeat ostep.
      + destruct (nth_error vals pos); repeat ostep.
    - intros [vals pos]. apply okeep_ret.
    - intros v a b body IH ls. rewrite list_loop_eq. apply okeep_lfor. exact IH.
    - intros ls. apply okeep_ret.
    - intros i IHi b IHb ls. rewrite list_cons_eq. apply okeep_bind; [apply IHi | exact IHb].
  Qed.

  Lemma okeep_do_cont head cs f : okeep (do_cont en head cs f).
  Proof. unfold do_cont. destruct (e_write en); repeat ostep. Qed.
  Lemma okeep_do_text cs f : okeep (do_text en cs f).
  Proof. unfold do_text. destruct (e_write en); repeat ostep. Qed.
  Lemma okeep_do_dir cs es : okeep (do_dir en cs es).
  Proof. unfold do_dir. destruct (e_write en); repeat ostep. Qed.
  Lemma okeep_do_intg cs ii jj kij nd : okeep (do_intg en cs ii jj kij nd).
  Proof.
    unfold do_intg. destruct (e_write en); repeat ostep.
    intros s. destruct (skip_blank_lines _ _); reflexivity.
  Qed.
  Lemma okeep_do_tab1 cs f x y name : okeep (do_tab1 en cs f x y name).
  Proof. unfold do_tab1. destruct (e_write en); repeat ostep. Qed.
  Lemma okeep_do_tab2 cs f name : okeep (do_tab2 en cs f name).
  Proof. unfold do_tab2. destruct (e_write en); repeat ostep. Qed.
  Lemma okeep_do_list cs f body name : okeep (do_list en cs f body name).
  Proof. unfold do_list. destruct (e_write en); repeat ostep; apply (proj2 okeep_list). Qed.
  Lemma okeep_do_send : okeep (do_send en).
  Proof.
    unfold do_send. destruct (e_write en); [repeat ostep|]. intros s.
    destruct (skip_blank_lines _ _); [|reflexivity]. destruct (read_send _ _ _) as [[[r c] o']|]; reflexivity.
  Qed.
  Lemma okeep_do_stop : okeep (do_stop en).
  Proof. unfold do_stop. destruct (e_write en); [apply (@okeep_fail unit)|]. intros s. destruct (get_line _ _); reflexivity. Qed.
  Lemma okeep_introduce x e : okeep (introduce x e).
  Proof. intros s. unfold introduce. destruct (dget (KStr x) (ps_dic s)); [destruct (existsb _ _)|]; reflexivity. Qed.
  Lemma okeep_remove : okeep remove_working.
  Proof. intros s. unfold remove_working. destruct (dget _ _) as [[]|]; try reflexivity. destruct (del_names _ _); reflexivity. Qed.
  Lemma okeep_guarded b m : okeep m -> okeep (guarded b m).
  Proof. intros Hm. unfold guarded. repeat ostep. exact Hm. Qed.

  Theorem exec_okeep :
    (forall i, no_look i = true -> okeep (exec en i)) /\ (forall b, no_look_block b = true -> okeep (exec_block en b)) /\
    (forall b, no_look_branch b = true -> okeep (exec_branch en b) /\ okeep (test_branch en b)) /\
    (forall r, no_look_branches r = true -> forall els, okeep els -> okeep (exec_branches en r els)).
  Proof.
    apply recipe_mut; intros;
      rewrite ?exec_section_eq, ?exec_for_eq, ?exec_if_eq, ?exec_cons_eq, ?exec_nil_eq, ?exec_branch_eq,
        ?exec_rcons_eq, ?test_branch_eq.
    - apply okeep_guarded, okeep_do_cont.
    - apply okeep_guarded, okeep_do_text.
    - apply okeep_guarded, okeep_do_dir.
    - apply okeep_guarded, okeep_do_intg.
    - apply okeep_guarded, okeep_do_tab1.
    - apply okeep_guarded, okeep_do_tab2.
    - apply okeep_guarded, okeep_do_list.
    - apply okeep_guarded, okeep_do_send.
    - apply okeep_guarded, okeep_do_stop.
    - apply okeep_guarded. destruct (negb _); [apply okeep_fail|].
      apply okeep_bind; [apply okeep_open|]. intros _.
      apply okeep_bind; [apply okeep_modify; reflexivity|]. intros _.
      apply okeep_bind; [apply H, H0|]. intros _.
      apply okeep_bind; [apply okeep_remove|]. intros _. apply okeep_close.
    - apply okeep_guarded, okeep_for. apply H, H0.
    - cbn [no_look] in H2. apply andb_prop in H2. destruct H2 as [H2 H3]. apply andb_prop in H2. destruct H2 as [H2 H4].
      apply okeep_guarded. apply okeep_bind; [apply H, H2|]. intros [|]; [apply H, H2 | apply H0; [exact H4 | apply H1, H3]].
    - apply okeep_guarded, okeep_introduce.
    - apply okeep_ret.
    - cbn [no_look_block] in H1. apply andb_prop in H1. destruct H1 as [H1 H2].
      apply okeep_bind; [apply okeep_proceed|]. intros [|]; [|apply okeep_ret].
      apply okeep_bind; [apply H, H1|]. intros _. apply H0, H2.
    - cbn [no_look_branch] in H0. destruct lookahead; [discriminate H0|].
      split; [apply H, H0 | apply okeep_get].
    - rewrite exec_rnil_eq. exact H0.
    - cbn [no_look_branches] in H1. apply andb_prop in H1. destruct H1 as [H1 H3].
      apply okeep_bind; [apply H, H1|]. intros [|]; [apply H, H1 | apply H0; assumption].
  Qed.

  Lemma run_section_okeep b : no_look_block b = true -> okeep (run_section en b).
  Proof.
    intros N. unfold run_section. apply okeep_bind; [apply okeep_modify; reflexivity|]. intros _.
    apply okeep_bind; [apply exec_okeep, N|]. intros _. apply okeep_remove.
  Qed.

  Lemma run_section_opts b s s' : run_section en b s = (Ok tt, s') -> ps_opts s' = ps_opts s.
  Proof.
    unfold run_section. intros H. apply mbind_ok in H. destruct H as (a & s1 & H1 & H). injection H1 as _ <-.
    apply mbind_ok in H. destruct H as (a2 & s2 & H2 & H).
    apply (proj2 (exec_frame en)) in H2. pose proof (okeep_remove s2) as K. rewrite H in K. cbn [snd] in K.
    rewrite K, (fk_opts _ _ _ H2). reflexivity.
  Qed.
End Opt.

(** ** The parser object *)

Lemma parse_recipe_opts en b o lines d o1 : parse_recipe en b o lines = (Ok d, o1) -> o1 = o.
Proof.
  unfold parse_recipe. destruct (run_section en b _) as [[[]|e] s1] eqn:E; [|discriminate]. intros H.
  injection H as _ <-. apply run_section_opts in E. exact E.
Qed.
Lemma parse_one_opts p o mf mt ls d o1 : parse_one p o mf mt ls = (Ok d, o1) -> o1 = o.
Proof. unfold parse_one. destruct (find_recipe _ _ _); [apply parse_recipe_opts | discriminate]. Qed.

(** [pr] keeps the state of the parser when it succeeds *)
Section Driver.
  Context {P D : Type}.
  Variables pr pr' : P -> Z -> Z -> list str -> result D * P.
  Variable has : Z -> Z -> bool.
  Variables (ro : ropts) (wo : wopts) (exc inc : selection).
  Variables p0 p0' : P.
  Hypothesis Keep : forall mf mt ls d p, pr p0 mf mt ls = (Ok d, p) -> p = p0.
  Hypothesis Same : forall mf mt ls d, pr p0 mf mt ls = (Ok d, p0) -> pr' p0' mf mt ls = (Ok d, p0').

  Lemma sec_same mf mt ls x p : parse_section pr has ro wo false exc inc p0 mf mt ls = (Ok x, p) ->
    p = p0 /\ parse_section pr' has ro wo false exc inc p0' mf mt ls = (Ok x, p0').
  Proof.
    unfold parse_section. destruct (bind _ _); [|discriminate].
    destruct (has mf mt && negb _); [|intros H; injection H as <- <-; auto].
    destruct (write_send _ _ _); [|discriminate].
    destruct (pr p0 mf mt _) as [[d|e] p1] eqn:E; intros H.
    - injection H as <- <-. pose proof (Keep _ _ _ _ _ E). subst p1. rewrite (Same _ _ _ _ E). auto.
    - rewrite andb_false_r in H. discriminate H.
  Qed.
  Lemma mts_same mf : forall mts x p, parse_mts pr has ro wo false exc inc p0 mf mts = (Ok x, p) ->
    p = p0 /\ parse_mts pr' has ro wo false exc inc p0' mf mts = (Ok x, p0').
  Proof.
    induction mts as [|[mt ls] r IH]; cbn [parse_mts]; intros x p H; [injection H as <- <-; auto|].
    destruct (parse_section pr _ _ _ _ _ _ _ _ _ _) as [[y|e] p1] eqn:E; [|discriminate H].
    apply sec_same in E. destruct E as [-> E]. rewrite E.
    destruct (parse_mts pr _ _ _ _ _ _ _ _ r) as [[z|e] p2]; [|discriminate H].
    destruct (IH _ _ eq_refl) as [-> ->]. injection H as <- <-. auto.
  Qed.
  Lemma mfs_same : forall mfs x p, parse_mfs pr has ro wo false exc inc p0 mfs = (Ok x, p) ->
    p = p0 /\ parse_mfs pr' has ro wo false exc inc p0' mfs = (Ok x, p0').
  Proof.
    induction mfs as [|[mf ls] r IH]; cbn [parse_mfs]; intros x p H; [injection H as <- <-; auto|].
    destruct (parse_mts pr _ _ _ _ _ _ _ _ _) as [[y|e] p1] eqn:E; [|discriminate H].
    apply mts_same in E. destruct E as [-> E]. rewrite E.
    destruct (parse_mfs pr _ _ _ _ _ _ _ r) as [[z|e] p2]; [|discriminate H].
    destruct (IH _ _ eq_refl) as [-> ->]. injection H as <- <-. auto.
  Qed.
  Lemma tape_same lines x p : parse_tape pr has ro wo false exc inc p0 lines = (Ok x, p) ->
    p = p0 /\ parse_tape pr' has ro wo false exc inc p0' lines = (Ok x, p0').
  Proof. unfold parse_tape. destruct (split_sections ro lines); [apply mfs_same | discriminate]. Qed.
End Driver.

Theorem parse_monotone p exc inc o o' lines d o1 : lenient o o' ->
  parse p false exc inc o lines = (Ok d, o1) -> parse p false exc inc o' lines = (Ok d, o').
Proof.
  intros L H. apply (tape_same (parse_one p) (parse_one p) _ _ _ _ _ o o') in H.
  - apply H.
  - intros. eapply parse_one_opts. eassumption.
  - intros mf mt ls x. unfold parse_one. destruct (find_recipe _ _ _); [|discriminate]. intros E.
    destruct (section_monotone _ _ _ _ _ _ _ L E) as (o2 & E2 & _).
    rewrite E2. apply parse_recipe_opts in E2. congruence.
Qed.

Theorem parse_opts p exc inc o lines d o1 : parse p false exc inc o lines = (Ok d, o1) -> o1 = o.
Proof.
  intros H. apply (tape_same (parse_one p) (parse_one p) _ _ _ _ _ o o) in H; [apply H | | auto].
  intros. eapply parse_one_opts. eassumption.
Qed.

(** all outcomes of a parser without lookahead *)
Section DriverAll.
  Context {P D : Type}.
  Variable pr : P -> Z -> Z -> list str -> result D * P.
  Variable has : Z -> Z -> bool.
  Variables (ro : ropts) (wo : wopts) (nofail : bool) (exc inc : selection).
  Hypothesis Keep : forall p mf mt ls, snd (pr p mf mt ls) = p.
  Lemma sec_all p mf mt ls : snd (parse_section pr has ro wo nofail exc inc p mf mt ls) = p.
  Proof.
    unfold parse_section. destruct (bind _ _); [|reflexivity].
    destruct (has mf mt && negb _); [|reflexivity]. destruct (write_send _ _ _); [|reflexivity].
    specialize (Keep p mf mt (ls ++ a0)). destruct (pr p mf mt _) as [[d|e] p1]; exact Keep.
  Qed.
  Lemma mts_all mf : forall mts p, snd (parse_mts pr has ro wo nofail exc inc p mf mts) = p.
  Proof.
    induction mts as [|[mt ls] r IH]; cbn [parse_mts]; intros p; [reflexivity|].
    pose proof (sec_all p mf mt ls) as E. destruct (parse_section _ _ _ _ _ _ _ _ _ _ _) as [[y|e] p1]; cbn [snd] in E; subst p1; [|reflexivity].
    specialize (IH p). destruct (parse_mts _ _ _ _ _ _ _ _ _ r) as [[z|e] p2]; exact IH.
  Qed.
  Lemma mfs_all : forall mfs p, snd (parse_mfs pr has ro wo nofail exc inc p mfs) = p.
  Proof.
    induction mfs as [|[mf ls] r IH]; cbn [parse_mfs]; intros p; [reflexivity|].
    pose proof (mts_all mf ls p) as E. destruct (parse_mts _ _ _ _ _ _ _ _ _ _) as [[y|e] p1]; cbn [snd] in E; subst p1; [|reflexivity].
    specialize (IH p). destruct (parse_mfs _ _ _ _ _ _ _ _ r) as [[z|e] p2]; exact IH.
  Qed.
  Lemma tape_all lines p : snd (parse_tape pr has ro wo nofail exc inc p lines) = p.
  Proof. unfold parse_tape. destruct (split_sections ro lines); [apply mfs_all | reflexivity]. Qed.
End DriverAll.

Theorem no_look_opts p o nofail exc inc lines :
  (forall mf mt b, find_recipe (p_recipes p) mf mt = Some b -> no_look_block b = true) ->
  snd (parse p nofail exc inc o lines) = o.
Proof.
  intros N. apply tape_all. intros q mf mt ls. unfold parse_one.
  destruct (find_recipe _ _ _) as [b|] eqn:F; [|reflexivity]. unfold parse_recipe.
  pose proof (run_section_okeep (read_env (p_ro p) (p_wo p) (p_depth p)) b (N _ _ _ F) (reset_state q ls [])) as K.
  destruct (run_section _ _ _) as [[u|e] s1]; exact K.
Qed.

Theorem no_look_history p cs o :
  (forall mf mt b, find_recipe (p_recipes p) mf mt = Some b -> no_look_block b = true) ->
  after_calls p o cs = o.
Proof.
  intros N. unfold after_calls. induction cs as [|c cs IH]; cbn [fold_left]; [reflexivity|].
  unfold after_call at 2. rewrite no_look_opts by exact N. exact IH.
Qed.

Lemma history_ok p cs o :
  (forall pre c, is_prefix (pre ++ [c]) cs -> c_nofail c = false /\
     exists d, fst (parse p (c_nofail c) (c_exclude c) (c_include c) (after_calls p o pre) (c_lines c)) = Ok d) ->
  after_calls p o cs = o.
Proof.
  intros H. assert (G : forall n, (n <= length cs)%nat -> after_calls p o (firstn n cs) = o).
  { induction n as [|n IH]; intros L; [reflexivity|].
    destruct (nth_error cs n) as [c|] eqn:E; [|apply nth_error_None in E; lia].
    assert (F : firstn (S n) cs = firstn n cs ++ [c]).
    { clear -E. revert n E. induction cs as [|a r IH]; intros [|n] E; cbn in *; try discriminate; [injection E as ->; reflexivity|].
      f_equal. apply IH, E. }
    rewrite F. unfold after_calls. rewrite fold_left_app. fold (after_calls p o (firstn n cs)). cbn [fold_left].
    destruct (H (firstn n cs) c) as (N & d & Hd).
    { exists (skipn (S n) cs). rewrite <- F. symmetry. apply firstn_skipn. }
    rewrite IH in Hd |- * by lia. unfold after_call. rewrite N in *.
    destruct (parse p false _ _ o _) as [r o1] eqn:P. cbn [fst snd] in *. subst r. apply parse_opts in P. exact P. }
  specialize (G (length cs) (le_n _)). rewrite firstn_all in G. exact G.
Qed.

(** ** Sections do not influence each other *)
Section Indep.
  Context {P D : Type}.
  Variable pr : P -> Z -> Z -> list str -> result D * P.
  Variable has : Z -> Z -> bool.
  Variables (ro : ropts) (wo : wopts) (nofail : bool) (exc inc : selection).
  Variable p0 : P.
  Let psec := parse_section pr has ro wo nofail exc inc p0.
  Hypothesis Keep : forall mf mt ls x p, psec mf mt ls = (Ok x, p) -> p = p0.

  Lemma mts_each mf : forall mts x p, parse_mts pr has ro wo nofail exc inc p0 mf mts = (Ok x, p) ->
    p = p0 /\ Forall2 (fun a b => fst a = fst b /\ psec mf (fst a) (snd a) = (Ok (snd b), p0)) mts x.
  Proof.
    induction mts as [|[mt ls] r IH]; cbn [parse_mts]; intros x p H; [injection H as <- <-; auto|].
    fold psec in H. destruct (psec mf mt ls) as [[y|e] p1] eqn:E; [|discriminate H].
    pose proof (Keep _ _ _ _ _ E). subst p1.
    destruct (parse_mts pr _ _ _ _ _ _ _ _ r) as [[z|e] p2]; [|discriminate H].
    destruct (IH _ _ eq_refl) as [-> F]. injection H as <- <-. split; [reflexivity|]. constructor; [auto | exact F].
  Qed.
  Lemma mfs_each : forall mfs x p, parse_mfs pr has ro wo nofail exc inc p0 mfs = (Ok x, p) ->
    p = p0 /\ Forall2 (fun a b => fst a = fst b /\
      Forall2 (fun u v => fst u = fst v /\ psec (fst a) (fst u) (snd u) = (Ok (snd v), p0)) (snd a) (snd b)) mfs x.
  Proof.
    induction mfs as [|[mf ls] r IH]; cbn [parse_mfs]; intros x p H; [injection H as <- <-; auto|].
    destruct (parse_mts pr _ _ _ _ _ _ _ _ _) as [[y|e] p1] eqn:E; [|discriminate H].
    apply mts_each in E. destruct E as [-> E].
    destruct (parse_mfs pr _ _ _ _ _ _ _ r) as [[z|e] p2]; [|discriminate H].
    destruct (IH _ _ eq_refl) as [-> F]. injection H as <- <-. split; [reflexivity|]. constructor; [auto | exact F].
  Qed.
  Lemma tape_each lines x p mf mt v : parse_tape pr has ro wo nofail exc inc p0 lines = (Ok x, p) ->
    holds x mf mt v -> exists d ls, split_sections ro lines = Ok d /\ holds d mf mt ls /\ psec mf mt ls = (Ok v, p0).
  Proof.
    unfold parse_tape. destruct (split_sections ro lines) as [d|]; [|discriminate]. intros H (sub & I1 & I2).
    apply mfs_each in H. destruct H as [_ F].
    destruct (Forall2_in_r _ _ _ _ F I1) as ([mf' mts] & J1 & E & G). cbn [fst snd] in E, G. subst mf'.
    destruct (Forall2_in_r _ _ _ _ G I2) as ([mt' ls] & J2 & E & K). cbn [fst snd] in E, K. subst mt'.
    exists d, ls. split; [reflexivity|]. split; [exists mts; auto | exact K].
  Qed.
End Indep.

(** the value of a parsed section *)
Lemma sec_value {P D} (pr : P -> Z -> Z -> list str -> result D * P) has ro wo nf exc inc nf' exc' inc' p mf mt ls x y :
  parse_section pr has ro wo nf exc inc p mf mt ls = (Ok (Parsed x), p) ->
  parse_section pr has ro wo nf' exc' inc' p mf mt ls = (Ok (Parsed y), p) -> x = y.
Proof.
  unfold parse_section. destruct (bind _ _); [|discriminate].
  destruct (has mf mt && _); [|discriminate]. destruct (has mf mt && _); [|discriminate].
  destruct (write_send _ _ _); [|discriminate]. destruct (pr p mf mt _) as [[d|e] p1]; intros H1 H2.
  - congruence.
  - destruct (is_parser_exception e && nf); discriminate H1.
Qed.

Theorem sections_independent p o nf1 nf2 exc1 inc1 exc2 inc2 lines1 lines2 d1 d2 o1 o2 s1 s2 mf mt ls v1 v2 :
  strict (p_ro p) ->
  (nf1 = false /\ nf2 = false \/
   forall mf mt b, find_recipe (p_recipes p) mf mt = Some b -> no_look_block b = true) ->
  parse p nf1 exc1 inc1 o lines1 = (Ok d1, o1) -> parse p nf2 exc2 inc2 o lines2 = (Ok d2, o2) ->
  split_sections (p_ro p) lines1 = Ok s1 -> split_sections (p_ro p) lines2 = Ok s2 ->
  holds s1 mf mt ls -> holds s2 mf mt ls ->
  holds d1 mf mt (Parsed v1) -> holds d2 mf mt (Parsed v2) -> v1 = v2.
Proof.
  intros St C P1 P2 S1 S2 L1 L2 V1 V2.
  assert (K : forall nf exc inc, nf = false \/ (forall mf mt b, find_recipe (p_recipes p) mf mt = Some b -> no_look_block b = true) ->
    forall mf mt ls x q, parse_section (parse_one p) (has_recipe (p_recipes p)) (p_ro p) (p_wo p) nf exc inc o mf mt ls = (Ok x, q) -> q = o).
  { clear. intros nf exc inc [->|N] mf mt ls x q H.
    - apply (sec_same (parse_one p) (parse_one p) _ _ _ _ _ o o) in H; [apply H | | auto].
      intros. eapply parse_one_opts. eassumption.
    - pose proof (sec_all (parse_one p) (has_recipe (p_recipes p)) (p_ro p) (p_wo p) nf exc inc) as A.
      rewrite <- (A) with (p := o) (mf := mf) (mt := mt) (ls := ls); [rewrite H; reflexivity|]. clear -N.
      intros q mf mt ls. unfold parse_one. destruct (find_recipe _ _ _) as [b|] eqn:F; [|reflexivity]. unfold parse_recipe.
      pose proof (run_section_okeep (read_env (p_ro p) (p_wo p) (p_depth p)) b (N _ _ _ F) (reset_state q ls [])) as K.
      destruct (run_section _ _ _) as [[u|e] s1]; exact K. }
  destruct (tape_each _ _ _ _ _ _ _ _ (K nf1 exc1 inc1 ltac:(tauto)) _ _ _ _ _ _ P1 V1) as (d & l1 & E1 & H1 & R1).
  destruct (tape_each _ _ _ _ _ _ _ _ (K nf2 exc2 inc2 ltac:(tauto)) _ _ _ _ _ _ P2 V2) as (d' & l2 & E2 & H2 & R2).
  assert (d = s1) by congruence. assert (d' = s2) by congruence. subst d d'.
  destruct (split_contents _ _ _ St S1) as (_ & _ & _ & D1 & _). destruct (split_contents _ _ _ St S2) as (_ & _ & _ & D2 & _).
  assert (l1 = ls) as -> by exact (holds_fun _ _ _ _ _ D1 H1 L1). assert (l2 = ls) as -> by exact (holds_fun _ _ _ _ _ D2 H2 L2).
  exact (sec_value _ _ _ _ _ _ _ _ _ _ _ _ _ _ _ _ R1 R2).
Qed.
