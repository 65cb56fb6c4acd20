(** A recipe and the recipe in which the abbreviations are replaced: whole recipes. *)
From Coq Require Import Ascii String ZArith Bool Lia List.
From Verif Require Import PyBase ModelFortran ModelRecords ModelNum ModelRecipe ModelInterp.
From Verif Require Import SpecInterp SpecRound SpecAbbrev ProofPyBase ProofInterp ProofInterpSec ProofInterpMap ProofRound3
  ProofAbbrev ProofAbbrev2 ProofAbbrev3.
Import ListNotations.
Open Scope Z_scope.

Section Equations.
  Variable B secs res : list str.
  Lemma unfold_section_eq A O h t b : unfold_instr B secs res A O (ISection h t b) =
    if section_name B secs res A (fst h) then option_map (ISection h t) (unfold_block B secs res [] (A :: O) b) else None.
  Proof. reflexivity. Qed.
  Lemma unfold_for_eq A O v a b body : unfold_instr B secs res A O (IFor v a b body) =
    match unfold_expr A (outside secs O) a, unfold_expr A (outside secs O) b, unfold_block B secs res (forget (intro_block body) A) O body with
    | Some a, Some b, Some body => if loop_name B v then Some (IFor v a b body) else None
    | _, _, _ => None
    end.
  Proof. reflexivity. Qed.
  Lemma unfold_if_eq A O f m e : unfold_instr B secs res A O (IIf f m e) =
    match unfold_branch B secs res A O f, unfold_branches B secs res A O m, unfold_block B secs res A O e with
    | Some f, Some m, Some e => Some (IIf f m e)
    | _, _, _ => None
    end.
  Proof. reflexivity. Qed.
  Definition is_abbrev (i : instr) : bool := match i with IAbbrev _ _ => true | _ => false end.
  Lemma unfold_cons_eq A O i r : is_abbrev i = false -> unfold_block B secs res A O (BCons i r) =
    match unfold_instr B secs res A O i, unfold_block B secs res (after A i) O r with Some i, Some r => Some (BCons i r) | _, _ => None end.
  Proof. destruct i; try reflexivity. discriminate. Qed.
  Lemma unfold_abbrev_eq A O x e r : unfold_block B secs res A O (BCons (IAbbrev x e) r) =
    if abbr_name B secs x then unfold_block B secs res (after A (IAbbrev x e)) O r else None.
  Proof. reflexivity. Qed.
  Lemma unfold_branch_eq A O c body : unfold_branch B secs res A O (Branch c None body) =
    match unfold_cond A (outside secs O) c, unfold_block B secs res A O body with
    | Some c, Some body => Some (Branch c None body)
    | _, _ => None
    end.
  Proof. reflexivity. Qed.
  Lemma unfold_look_eq A O c k body : unfold_branch B secs res A O (Branch c (Some k) body) =
    match unfold_cond (forget (hidden A ++ intro_block body) []) (outside secs O) c, unfold_expr A (outside secs O) k, unfold_block B secs res A O body with
    | Some c, Some k, Some body => Some (Branch c (Some k) body)
    | _, _, _ => None
    end.
  Proof. reflexivity. Qed.
  Lemma unfold_rcons_eq A O b r : unfold_branches B secs res A O (RCons b r) =
    match unfold_branch B secs res A O b, unfold_branches B secs res A O r with Some b, Some r' => Some (RCons b r') | _, _ => None end.
  Proof. reflexivity. Qed.
End Equations.

Section Sim.
  Variable en : env.
  Variable B secs res : list str.
  Variable strict : bool.
  Variable dp : nat.
  Hypothesis Hdepth : e_depth en = S dp.
  Hypothesis Hres : forall x, In x res -> internalb x = false /\ ctrl_nameb x = false.
  Hypothesis Hstrict : strict = true -> incl B res.

  Notation K := (K res strict).
  Notation tidy := (tidy res strict).
  Notation rel := (rel B secs res strict).
  Notation ew := (ew secs res strict).
  Notation sim := (sim strict).
  Notation rl w A O := (rel w false A O).
  Notation er A O := (ew (hidden A) (map hidden O)).
  Notation fu := (fields_unfold res).
  Notation same A O := (sim (rl true A O) (rl true A O) (er A O)).

  Lemma same_guarded A O act m1 m2 : same A O m1 m2 -> same A O (guarded act m1) (guarded act m2).
  Proof.
    intros H. unfold guarded. eapply sim_bind; [apply sim_proceed|]. intros [|]; [exact H|apply sim_ret].
  Qed.
  Lemma same_if_proceed {T} A O (d : T) m1 m2 : same A O m1 m2 -> same A O (if_proceed d m1) (if_proceed d m2).
  Proof.
    intros H. unfold if_proceed. eapply sim_bind; [apply sim_proceed|]. intros [|]; [exact H|apply sim_ret].
  Qed.

  Lemma fields_fu A f f' : unfold_fields res A f = Some f' -> fu A (fields_list f) (fields_list f').
  Proof.
    unfold unfold_fields, fields_list. destruct f as [a b c d e g]. cbn [f_c1 f_c2 f_l1 f_l2 f_n1 f_n2].
    destruct (unfold_expr A res a) eqn:Ua; [|discriminate]. destruct (unfold_expr A res b) eqn:Ub; [|discriminate].
    destruct (unfold_expr A res c) eqn:Uc; [|discriminate]. destruct (unfold_expr A res d) eqn:Ud; [|discriminate].
    destruct (unfold_expr A res e) eqn:Ue; [|discriminate]. destruct (unfold_expr A res g) eqn:Ug; [|discriminate].
    intros H. injection H as <-. cbn [f_c1 f_c2 f_l1 f_l2 f_n1 f_n2]. repeat (constructor; [assumption|]). constructor.
  Qed.
  Lemma tidy_cont r : Forall tidy (cont_vals r).
  Proof. unfold cont_vals. repeat constructor. Qed.

  Lemma sim_cont A O h cs f f' : unfold_fields res A f = Some f' -> same A O (do_cont en h cs f) (do_cont en h cs f').
  Proof.
    intros U. apply fields_fu in U. unfold do_cont. destruct (e_write en).
    - eapply sim_bind; [apply sim_spec_write|]. intros _. eapply sim_bind; [eapply sim_map_write; eassumption|]. intros vs.
      exact (sim_write_with _ _ _ _ _ _ _ (fun c => do c <- c; do r <- cont_of vs; write_cont (e_wo en) r c)).
    - eapply sim_bind; [apply sim_read_with|]. intros [r c]. eapply sim_bind; [apply sim_spec_read|]. intros _.
      eapply sim_bind; [eapply sim_map_read; eauto; apply tidy_cont|]. intros _.
      destruct h; [now apply sim_update_ctrl|apply sim_ret].
  Qed.

  Lemma sim_text_read A O fs : forallb (text_name res A (outside secs O)) fs = true -> forall full pos,
    same A O (text_read fs full pos) (text_read fs full pos).
  Proof.
    induction fs as [|[u len] r IH]; intros H full pos; cbn [text_read]; [apply sim_ret|]. cbv zeta.
    cbn [forallb] in H. apply andb_true_iff in H. destruct H as [H1 H2].
    destruct (Nat.leb _ pos); [apply sim_fail; intros a b; apply rl_er|].
    eapply sim_bind; [|intros _; now apply IH]. destruct u as [[x ix]|]; [|apply sim_ret].
    unfold text_name in H1. cbn [fst] in H1. apply andb_true_iff in H1. destruct H1 as [H1 _]. apply data_name_spec in H1.
    apply sim_set_var; [exact H1|constructor].
  Qed.
  Lemma text_write_eq A O fs s1 s2 : rl true A O s1 s2 -> forallb (text_name res A (outside secs O)) fs = true ->
    text_write en (scope_of s1) fs = text_write en (scope_of s2) fs.
  Proof.
    intros R H. unfold text_write. replace (mapM (text_piece en (scope_of s1)) fs) with (mapM (text_piece en (scope_of s2)) fs); [reflexivity|].
    induction fs as [|[u len] r IH]; [reflexivity|]. cbn [forallb] in H. apply andb_true_iff in H. destruct H as [H1 H2].
    cbn [mapM]. rewrite (IH H2). replace (text_piece en (scope_of s1) (u, len)) with (text_piece en (scope_of s2) (u, len)); [reflexivity|].
    destruct u as [[x ix]|]; [|reflexivity]. unfold text_name in H1. cbn [fst] in H1. rewrite andb_true_iff, negb_true_iff, among_out in H1.
    destruct H1 as [H1 H3]. apply data_name_spec in H1. destruct H1 as (P & Q & S).
    destruct (proj2 (rel_sees _ _ _ _ _ _ _ _ _ R)) as [G _]. destruct (G x ix P H3 S) as [E N].
    unfold text_piece, get_varval. rewrite <- E. destruct (get_raw (scope_of s1) true x ix) as [v|]; [|reflexivity]. cbn [bind].
    destruct v; try reflexivity. destruct (N e); reflexivity.
  Qed.
  Lemma sim_text A O cs fs : forallb (text_name res A (outside secs O)) fs = true -> same A O (do_text en cs fs) (do_text en cs fs).
  Proof.
    intros H. unfold do_text. destruct (e_write en).
    - eapply sim_bind; [apply sim_spec_write|]. intros _.
      eapply sim_bind; [apply sim_read; [intros a b R; exact (text_write_eq _ _ _ _ _ R H)|intros a b; apply rl_er]|]. intros t.
      exact (sim_write_with _ _ _ _ _ _ _ (fun c => do c <- c; Ok (write_text (e_wo en) t c))).
    - eapply sim_bind; [apply sim_read_with|]. intros [t c]. eapply sim_bind; [apply sim_spec_read|]. intros _.
      eapply sim_bind; [now apply sim_text_read|]. intros _. now apply sim_update_ctrl.
  Qed.

  Lemma sim_dir A O cs es es' : fu A es es' -> same A O (do_dir en cs es) (do_dir en cs es').
  Proof.
    intros U. unfold do_dir. destruct (e_write en).
    - eapply sim_bind; [apply sim_spec_write|]. intros _. eapply sim_bind; [eapply sim_map_write; eassumption|]. intros vs.
      exact (sim_write_with _ _ _ _ _ _ _ (fun c => do c <- c; do zs <- mapM as_Z vs;
        match zs with
        | [a; b; c'; d] => Ok (write_dir (e_wo en) {| D_L1 := a; D_L2 := b; D_N1 := c'; D_N2 := d |} c)
        | _ => Err KeyError
        end)).
    - eapply sim_bind; [apply sim_read_with|]. intros [r c]. eapply sim_bind; [apply sim_spec_read|]. intros _.
      eapply sim_map_read; eauto. repeat constructor.
  Qed.

  Lemma sim_intg A O cs ii jj kij nd ii' jj' kij' nd' : fu A [ii; jj; kij] [ii'; jj'; kij'] ->
    unfold_expr A (outside secs O) nd = Some nd' -> same A O (do_intg en cs ii jj kij nd) (do_intg en cs ii' jj' kij' nd').
  Proof.
    intros U N. unfold do_intg. destruct (e_write en).
    - eapply sim_bind; [apply sim_spec_write|]. intros _. eapply sim_bind; [eapply sim_map_write; eassumption|]. intros vs.
      eapply sim_bind; [apply sim_read; [intros a b R; exact (get_ctrl_rel _ _ _ _ _ _ _ _ _ _ R)|intros a b; apply rl_er]|]. intros c.
      eapply sim_bind; [eapply sim_eval_ctl; eassumption|]. intros n.
      exact (sim_write_with _ _ _ _ _ _ _ (fun _ => do n <- as_Z n;
        match vs with
        | [a; b; k] => do a <- as_Z a; do b <- as_Z b; do k <- as_Zs k;
                       Ok (write_intg (e_wo en) n {| G_II := a; G_JJ := b; G_KIJ := k |} c)
        | _ => Err KeyError
        end)).
    - eapply sim_bind.
      { intros s1 s2 R. pose proof R as (Rs & _). rewrite (r_lines _ _ Rs), (r_ofs _ _ Rs).
        destruct (skip_blank_lines _ _); constructor; [exact R|]. now apply rl_er with (B := B) (w := true). }
      intros _. eapply sim_bind; [eapply sim_eval_ctl; eassumption|]. intros n.
      eapply sim_bind; [apply sim_lift; intros ? ?; apply rl_er|]. intros z.
      eapply sim_bind; [apply sim_read_with|]. intros [r c]. eapply sim_bind; [apply sim_spec_read|]. intros _.
      eapply (sim_map_read en B secs res strict dp Hdepth true A O [vint (G_II r); vint (G_JJ r); VList (map vint (G_KIJ r))]); [|exact U].
      constructor; [constructor|]. constructor; [constructor|]. constructor; [|constructor].
      constructor. apply Forall_forall. intros x J. apply in_map_iff in J as (z' & <- & _). constructor.
  Qed.

  Lemma fu_data A l : forallb (fun u => data_name res A (fst u)) l = true -> fu A (map ev l) (map ev l).
  Proof.
    induction l as [|[x ix] r IH]; cbn [forallb map]; [constructor|]. intros H. apply andb_true_iff in H. destruct H as [H1 H2].
    constructor; [|auto]. apply data_name_spec in H1. destruct H1 as (P & Q & S). unfold ev. cbn [fst snd unfold_expr] in *.
    rewrite (proj2 (meaning_none x A) P), (proj2 (among_out x res) Q), S. reflexivity.
  Qed.
  Lemma tidy_vns l : tidy (VList (map vn l)).
  Proof. apply tidy_nums. Qed.

  Lemma sim_tab1 A O cs f f' x y name : table_ok B secs res A name = true ->
    forallb (data_name res (table_level A name)) [$"NBT"; $"INT"; fst x; fst y] = true ->
    fu A [f_c1 f; f_c2 f; f_l1 f; f_l2 f] [f_c1 f'; f_c2 f'; f_l1 f'; f_l2 f'] ->
    same A O (do_tab1 en cs f x y name) (do_tab1 en cs f' x y name).
  Proof.
    intros TB DN U.
    assert (V : fu (table_level A name) (tab_vars ++ [ev x; ev y]) (tab_vars ++ [ev x; ev y])).
    { exact (fu_data _ [($"NBT", []); ($"INT", []); x; y] DN). }
    unfold do_tab1. cbv zeta. destruct (e_write en).
    - eapply sim_bind; [apply sim_spec_write|]. intros _. eapply sim_bind; [eapply sim_map_write; eassumption|]. intros vs.
      eapply sim_bind.
      { apply sim_in_section; auto. destruct name; cbn [table_level] in V; eapply sim_map_write; eassumption. }
      intros tv.
      exact (sim_write_with _ _ _ _ _ _ _ (fun c => do c <- c;
        match tv with
        | [n; i; xs; ys] =>
            do n <- as_Zs n; do i <- as_Zs i; do xs <- as_nums xs; do ys <- as_nums ys;
            do r <- cont_of (vs ++ [vint 0; vint 0]);
            write_tab1 (e_wo en) r c n i xs ys
        | _ => Err KeyError
        end)).
    - eapply sim_bind; [apply sim_read_with|]. intros [[r c] tbl]. eapply sim_bind; [apply sim_spec_read|]. intros _.
      eapply sim_bind; [eapply sim_map_read; eauto; apply tidy_cont|]. intros _.
      apply same_if_proceed. destruct tbl as [[[n i] xs] ys].
      assert (TV : Forall tidy [VList (map vn n); VList (map vn i); VList (map vn xs); VList (map vn ys)]).
      { repeat (constructor; [apply tidy_vns|]). constructor. }
      apply sim_in_section; auto. destruct name; cbn [table_level] in V; eapply sim_map_read; eauto.
  Qed.
  Lemma sim_tab2 A O cs f f' name : table_ok B secs res A name = true ->
    forallb (data_name res (table_level A name)) [$"NBT"; $"INT"] = true ->
    fu A [f_c1 f; f_c2 f; f_l1 f; f_l2 f; f_n2 f] [f_c1 f'; f_c2 f'; f_l1 f'; f_l2 f'; f_n2 f'] ->
    same A O (do_tab2 en cs f name) (do_tab2 en cs f' name).
  Proof.
    intros TB DN U.
    assert (V : fu (table_level A name) tab_vars tab_vars).
    { exact (fu_data _ [($"NBT", []); ($"INT", [])] DN). }
    unfold do_tab2. cbv zeta. destruct (e_write en).
    - eapply sim_bind; [apply sim_spec_write|]. intros _. eapply sim_bind; [eapply sim_map_write; eassumption|]. intros vs.
      eapply sim_bind.
      { apply sim_in_section; auto. destruct name; cbn [table_level] in V; eapply sim_map_write; eassumption. }
      intros tv.
      exact (sim_write_with _ _ _ _ _ _ _ (fun c => do c <- c;
        match tv, vs with
        | [n; i], [c1; c2; l1; l2; n2] =>
            do n <- as_Zs n; do i <- as_Zs i;
            do r <- cont_of [c1; c2; l1; l2; vint 0; n2];
            write_tab2 (e_wo en) r c n i
        | _, _ => Err KeyError
        end)).
    - eapply sim_bind; [apply sim_read_with|]. intros [[r c] tbl]. eapply sim_bind; [apply sim_spec_read|]. intros _.
      eapply sim_bind; [eapply sim_map_read; eauto; repeat constructor|]. intros _.
      apply same_if_proceed.
      assert (TV : Forall tidy [VList (map vn (fst tbl)); VList (map vn (snd tbl))]).
      { repeat (constructor; [apply tidy_vns|]). constructor. }
      apply sim_in_section; auto. destruct name; cbn [table_level] in V; eapply sim_map_read; eauto.
  Qed.

  Lemma sim_list A O cs f f' body body' name : table_ok B secs res A name = true ->
    unfold_fields res A f = Some f' -> unfold_list B res (table_level A name) (table_outside secs A O name) body = Some body' ->
    same A O (do_list en cs f body name) (do_list en cs f' body' name).
  Proof.
    intros TB U UB. apply fields_fu in U.
    assert (LB : forall ls, same A O (in_section en name (list_body en body ls)) (in_section en name (list_body en body' ls))).
    { intros ls. apply sim_in_section; auto. destruct name; cbn [table_level table_outside] in UB; eapply sim_list_body; eauto. }
    unfold do_list. destruct (e_write en).
    - eapply sim_bind; [apply sim_spec_write|]. intros _. eapply sim_bind; [eapply sim_map_write; eassumption|]. intros vs.
      eapply sim_bind; [apply LB|]. intros [vals p].
      exact (sim_write_with _ _ _ _ _ _ _ (fun c => do c <- c; do r <- cont_of vs; write_list (e_wo en) r c vals)).
    - eapply sim_bind; [apply sim_read_with|]. intros [[r c] vals]. eapply sim_bind; [apply sim_spec_read|]. intros _.
      eapply sim_bind; [eapply sim_map_read; eauto; apply tidy_cont|]. intros _.
      apply same_if_proceed. eapply sim_bind; [apply LB|]. intros [v p].
      destruct (Nat.ltb p (length vals)); [apply sim_fail; intros a b; apply rl_er|apply sim_ret].
  Qed.

  Lemma sim_send A O : same A O (do_send en) (do_send en).
  Proof.
    unfold do_send. destruct (e_write en).
    - exact (sim_write_with _ _ _ _ _ _ _ (fun c => do c <- c; write_send (e_wo en) (e_blank en) c)).
    - intros s1 s2 R. pose proof R as (Rs & _ & NB & _). rewrite (r_lines _ _ Rs), (r_ofs _ _ Rs).
      destruct (skip_blank_lines (ps_lines s2) (ps_ofs s2)) as [o|e]; [|constructor; now apply rl_er with (B := B) (w := true)].
      destruct (read_send (e_ro en) (ps_lines s2) o) as [[[a b] o']|e]; [|constructor; now apply rl_er with (B := B) (w := true)].
      cbv zeta. constructor. eapply rel_other; [exact R| | | | | | |]; try reflexivity; [|exact NB|discriminate].
      destruct Rs; constructor; cbn [advance ps_loops ps_look ps_lines ps_ofs ps_opts ps_log]; congruence.
  Qed.
  Lemma sim_stop A O : same A O (do_stop en) (do_stop en).
  Proof.
    intros s1 s2 R. pose proof R as (Rs & _). unfold do_stop. rewrite (r_lines _ _ Rs), (r_ofs _ _ Rs).
    assert (E := rl_er B secs res strict _ _ _ _ _ R). destruct (e_write en); [now constructor|]. destruct (get_line _ _); now constructor.
  Qed.

  (** the instructions without a body *)
  Definition simple (i : instr) : Prop :=
    match i with ISection _ _ _ | IFor _ _ _ _ | IIf _ _ _ | IAbbrev _ _ => False | _ => True end.
  Lemma sim_simple i A O i' : simple i -> unfold_instr B secs res A O i = Some i' -> same A O (exec en i) (exec en i').
  Proof.
    destruct i as [h cs f|cs fs|cs a b c d|cs a b c d|cs f x y name|cs f name|cs f body name| | | | | |]; cbn [simple]; try tauto; intros _;
      cbn [unfold_instr].
    - destruct (unfold_fields res A f) eqn:U; [|discriminate]. intros H. injection H as <-. apply same_guarded. now apply sim_cont.
    - destruct (forallb (text_name res A (outside secs O)) fs) eqn:U; [|discriminate]. intros H. injection H as <-. apply same_guarded. now apply sim_text.
    - destruct (unfold_expr A res a) eqn:Ua; [|discriminate]. destruct (unfold_expr A res b) eqn:Ub; [|discriminate].
      destruct (unfold_expr A res c) eqn:Uc; [|discriminate]. destruct (unfold_expr A res d) eqn:Ud; [|discriminate].
      intros H. injection H as <-. apply same_guarded. apply sim_dir. repeat (constructor; [assumption|]). constructor.
    - destruct (unfold_expr A res a) eqn:Ua; [|discriminate]. destruct (unfold_expr A res b) eqn:Ub; [|discriminate].
      destruct (unfold_expr A res c) eqn:Uc; [|discriminate]. destruct (unfold_expr A (outside secs O) d) eqn:Ud; [|discriminate].
      intros H. injection H as <-. apply same_guarded. apply sim_intg; [|assumption]. repeat (constructor; [assumption|]). constructor.
    - destruct (table_ok B secs res A name && _) eqn:TB; [|discriminate]. apply andb_true_iff in TB. destruct TB as [T1 T2].
      destruct (unfold_expr A res (f_c1 f)) eqn:Ua; [|discriminate]. destruct (unfold_expr A res (f_c2 f)) eqn:Ub; [|discriminate].
      destruct (unfold_expr A res (f_l1 f)) eqn:Uc; [|discriminate]. destruct (unfold_expr A res (f_l2 f)) eqn:Ud; [|discriminate].
      intros H. injection H as <-. apply same_guarded. apply sim_tab1; [exact T1|exact T2|]. cbn [f_c1 f_c2 f_l1 f_l2]. repeat (constructor; [assumption|]). constructor.
    - destruct (table_ok B secs res A name && _) eqn:TB; [|discriminate]. apply andb_true_iff in TB. destruct TB as [T1 T2].
      destruct (unfold_expr A res (f_c1 f)) eqn:Ua; [|discriminate]. destruct (unfold_expr A res (f_c2 f)) eqn:Ub; [|discriminate].
      destruct (unfold_expr A res (f_l1 f)) eqn:Uc; [|discriminate]. destruct (unfold_expr A res (f_l2 f)) eqn:Ud; [|discriminate].
      destruct (unfold_expr A res (f_n2 f)) eqn:Ue; [|discriminate].
      intros H. injection H as <-. apply same_guarded. apply sim_tab2; [exact T1|exact T2|]. cbn [f_c1 f_c2 f_l1 f_l2 f_n2]. repeat (constructor; [assumption|]). constructor.
    - destruct (table_ok B secs res A name) eqn:TB; [|discriminate]. destruct (unfold_fields res A f) eqn:U; [|discriminate].
      destruct (unfold_list B res (table_level A name) (table_outside secs A O name) body) eqn:UB; [|discriminate].
      intros H. injection H as <-. apply same_guarded. now apply sim_list.
    - intros H. injection H as <-. apply same_guarded, sim_send.
    - intros H. injection H as <-. apply same_guarded, sim_stop.
  Qed.
End Sim.
