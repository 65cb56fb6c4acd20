(** A recipe and the recipe in which the abbreviations are replaced: records. *)
From Coq Require Import Ascii String ZArith Bool Lia List.
From Verif Require Import PyBase ModelFortran ModelRecords ModelNum ModelRecipe ModelInterp.
From Verif Require Import SpecInterp SpecRound SpecAbbrev ProofPyBase ProofInterp ProofInterpSec ProofInterpMap ProofRound3 ProofAbbrev ProofAbbrev2.
Import ListNotations.
Open Scope Z_scope.

Lemma unfold_loop_eq B res A bad v a b body : unfold_item B res A bad (LLoop v a b body) =
  match unfold_expr A bad a, unfold_expr A bad b, unfold_list B res A bad body with
  | Some a, Some b, Some body => if loop_name B v then Some (LLoop v a b body) else None
  | _, _, _ => None
  end.
Proof. reflexivity. Qed.
Lemma unfold_lcons_eq B res A bad i r : unfold_list B res A bad (LCons i r) =
  match unfold_item B res A bad i, unfold_list B res A bad r with Some i, Some r => Some (LCons i r) | _, _ => None end.
Proof. reflexivity. Qed.

Section Sim.
  Variable en : env.
  Variable B secs res : list str.
  Variable strict : bool.
  Variable dp : nat.
  Hypothesis Hdepth : e_depth en = S dp.
  Hypothesis Hres : forall x, In x res -> internalb x = false /\ ctrl_nameb x = false.
  Hypothesis Hstrict : strict = true -> incl B res.

  Notation K := (K res strict).
  Notation tidy := (tidy res strict).
  Notation rel := (rel B secs res strict).
  Notation ew := (ew secs res strict).

  Lemma K_internal x : internalb x = true -> K x.
  Proof. intros H _ J. destruct (Hres x J). congruence. Qed.
  Lemma K_ctrl x : ctrl_nameb x = true -> K x.
  Proof. intros H _ J. destruct (Hres x J). congruence. Qed.
  Lemma K_out x : ~ In x res -> K x.
  Proof. intros H _. exact H. Qed.

  (** ** Pairs of computations *)

  Inductive outc {T} (Q E : pstate -> pstate -> Prop) : result T * pstate -> result T * pstate -> Prop :=
  | o_ok a t1 t2 : Q t1 t2 -> outc Q E (Ok a, t1) (Ok a, t2)
  | o_err e t1 t2 : E t1 t2 -> outc Q E (Err e, t1) (Err e, t2)
  | o_coll t1 r : strict = false -> outc Q E (Err AbbreviationNameCollisionError, t1) r.
  Definition sim {T} (P Q E : pstate -> pstate -> Prop) (m1 m2 : M T) : Prop :=
    forall s1 s2, P s1 s2 -> outc Q E (m1 s1) (m2 s2).

  Lemma sim_bind {T U} P Q R E (m1 m2 : M T) (f1 f2 : T -> M U) :
    sim P Q E m1 m2 -> (forall a, sim Q R E (f1 a) (f2 a)) -> sim P R E (mbind m1 f1) (mbind m2 f2).
  Proof.
    intros H1 H2 s1 s2 HP. unfold mbind. destruct (H1 s1 s2 HP); [now apply H2|now constructor|now apply o_coll].
  Qed.
  Lemma sim_weak {T} (P P' Q Q' E E' : pstate -> pstate -> Prop) (m1 m2 : M T) :
    (forall a b, P' a b -> P a b) -> (forall a b, Q a b -> Q' a b) -> (forall a b, E a b -> E' a b) ->
    sim P Q E m1 m2 -> sim P' Q' E' m1 m2.
  Proof. intros HP HQ HE H s1 s2 p. destruct (H s1 s2 (HP _ _ p)); constructor; auto. Qed.
  Lemma sim_read {T} (P E : pstate -> pstate -> Prop) (f1 f2 : pstate -> result T) :
    (forall a b, P a b -> f1 a = f2 b) -> (forall a b, P a b -> E a b) -> sim P P E (fun s => (f1 s, s)) (fun s => (f2 s, s)).
  Proof. intros H HE s1 s2 p. rewrite (H _ _ p). destruct (f2 s2); constructor; auto. Qed.
  Lemma sim_ret {T} (P E : pstate -> pstate -> Prop) (a : T) : sim P P E (ret a) (ret a).
  Proof. intros s1 s2 p. now constructor. Qed.
  Lemma sim_lift {T} (P E : pstate -> pstate -> Prop) (r : result T) : (forall a b, P a b -> E a b) -> sim P P E (lift r) (lift r).
  Proof. intros HE. apply sim_read; auto. Qed.
  Lemma sim_fail {T} (P Q E : pstate -> pstate -> Prop) e : (forall a b, P a b -> E a b) -> @sim T P Q E (fail e) (fail e).
  Proof. intros HE s1 s2 p. constructor. auto. Qed.
  Lemma sim_modify (P Q E : pstate -> pstate -> Prop) f : (forall a b, P a b -> Q (f a) (f b)) -> sim P Q E (modify f) (modify f).
  Proof. intros H s1 s2 p. constructor. auto. Qed.

  (** changes outside the dictionaries *)
  Lemma rel_other w z A O s1 s2 t1 t2 : rel w z A O s1 s2 -> rest t1 t2 ->
    ps_up t1 = ps_up s1 -> ps_up t2 = ps_up s2 -> ps_dic t1 = ps_dic s1 -> ps_dic t2 = ps_dic s2 ->
    nob B (ps_loops t1) -> (z = true -> ps_look s1 = Some 0 -> ps_look t1 = Some 0) -> rel w z A O t1 t2.
  Proof.
    intros (R & F & NB & N & L & W & D) R' E1 E2 E3 E4 NB' Z. unfold ProofAbbrev2.rel. rewrite E1, E2, E3, E4.
    split; [exact R'|]. split; [exact F|]. split; [exact NB'|]. exists N. split; [exact L|]. split; [exact W|].
    destruct D as [D|[D1 D2]]; [now left|right; auto].
  Qed.

  (** changes of the open dictionary *)
  Lemma rel_dset w A O s1 s2 x v : rel w false A O s1 s2 -> ~ In x (hidden A) \/ ctrl_nameb x = true -> x <> $"__abbrevs" -> K x -> tidy v ->
    rel w false A O (set_dic (dset (KStr x) v (ps_dic s1)) s1) (set_dic (dset (KStr x) v (ps_dic s2)) s2).
  Proof.
    intros (R & F & NB & N & L & W & D) H I Kx T. destruct D as [D|[D _]]; [|discriminate].
    assert (HN : ~ In x N).
    { intros J. destruct (l_names _ _ _ _ _ _ _ _ L _ J) as [P (_ & _ & Q & _)]. destruct H; [tauto|congruence]. }
    unfold ProofAbbrev2.rel. cbn [set_dic ps_up ps_dic ps_loops ps_look]. split; [destruct R; constructor; assumption|].
    split; [exact F|]. split; [exact NB|]. exists N. split; [now apply lvn_set|]. split.
    - intros E. rewrite dget_dset_other; [auto|]. intros X. unfold AB in X. congruence.
    - left. now apply defd_set.
  Qed.

  Notation rl w A O := (rel w false A O).
  Notation er A O := (ew (hidden A) (map hidden O)).

  Lemma rl_er w A O s1 s2 : rl w A O s1 s2 -> er A O s1 s2.
  Proof. apply rel_ew, incl_refl. Qed.

  Definition dname (A : level) (x : str) : Prop := ~ In x (hidden A) /\ ~ In x res /\ internalb x = false.
  Lemma data_name_spec A x : data_name res A x = true <-> dname A x.
  Proof.
    unfold data_name, dname. rewrite !andb_true_iff, !negb_true_iff, !among_out. tauto.
  Qed.

  Lemma sim_set_var w A O u v : dname A (fst u) -> tidy v -> sim (rl w A O) (rl w A O) (er A O) (set_var u v) (set_var u v).
  Proof.
    intros (H1 & H2 & H3) T s1 s2 R. destruct u as [x ix]. cbn [fst] in *.
    pose proof R as (Rs & _ & _ & N & L & _).
    assert (G : dget (KStr x) (ps_dic s1) = dget (KStr x) (ps_dic s2)).
    { apply (lvn_get _ _ _ _ _ _ _ _ _ L); [|exact H3]. intros J. destruct (l_names _ _ _ _ _ _ _ _ L _ J). tauto. }
    pose proof (not_ab x H3) as NA.
    unfold set_var. destruct ix as [|i ix].
    - constructor. apply rel_dset; auto. now apply K_out.
    - rewrite (r_loops _ _ Rs), G. destruct (mapM (get_indexvalue (ps_loops s2)) (i :: ix)) as [ids|e]; [|constructor; now apply rl_er with w].
      cbn [bind].
      destruct (set_indexed ids v match dget (KStr x) (ps_dic s2) with Some o => o | None => VDict [] end) as [arr|e] eqn:Q;
        [|constructor; now apply rl_er with w].
      constructor. apply rel_dset; auto; [now apply K_out|]. eapply tidy_set_indexed; [exact T| |exact Q].
      destruct (dget (KStr x) (ps_dic s2)) eqn:D; [|constructor; constructor].
      exact (proj2 (dtidy_get _ _ _ _ _ (l_tidy _ _ _ _ _ _ _ _ L) D)).
  Qed.

  (** ** Fields *)

  Lemma eval_field w A O s1 s2 e e' cast acc : rl w A O s1 s2 -> unfold_expr A res e = Some e' ->
    eval_expr (e_depth en) (scope_of s1) false cast acc e = eval_expr (e_depth en) (scope_of s2) false cast acc e'.
  Proof.
    intros R U. rewrite Hdepth. eapply unfold_eval; [|exact U]. exact (proj1 (rel_sees _ _ _ _ _ _ _ _ _ R) res).
  Qed.
  Lemma field_plain w A O s1 s2 e e' : rl w A O s1 s2 -> unfold_expr A res e = Some e' ->
    forall x ix, In (x, ix) (vars_of e') -> dname A x /\ forall a, get_raw (scope_of s2) false x ix <> Ok (VExpr a).
  Proof.
    intros R U x ix J. destruct (unfold_vars _ _ _ _ U _ _ J) as (P & Q & S). split; [repeat split; assumption|].
    destruct (proj1 (rel_sees _ _ _ _ _ _ _ _ _ R) res) as [H _]. destruct (H x ix P Q S) as [E N]. intros a. now rewrite <- E.
  Qed.

  Lemma sim_map_field w A O v e e' : tidy v -> unfold_expr A res e = Some e' ->
    sim (rl w A O) (rl w A O) (er A O) (map_field en v e) (map_field en v e').
  Proof.
    intros T U s1 s2 R. pose proof R as (Rs & _). unfold map_field. cbv zeta. rewrite (r_opts _ _ Rs).
    rewrite (eval_field _ _ _ _ _ _ _ _ _ R U).
    destruct (eval_expr (e_depth en) (scope_of s2) false (negb (o_all (ps_opts s2))) true e') as [[[c k] [u|]]|er] eqn:Q.
    - destruct (solve (negb (o_all (ps_opts s2))) c k v) as [r|e0] eqn:SV; [|constructor; now apply rl_er with w].
      pose proof (eval_unknown_var _ _ _ _ _ _ (fun x ix J => proj2 (field_plain _ _ _ _ _ _ _ R U x ix J)) _ _ _ Q) as J.
      destruct u as [x ix]. destruct (field_plain _ _ _ _ _ _ _ R U x ix J) as [D _].
      pose proof (solve_tidy _ _ _ _ _ _ _ T SV) as TV.
      exact (sim_bind _ _ _ _ _ _ _ _ (sim_set_var w A O (x, ix) r D TV) (fun _ => sim_ret _ _ false) s1 s2 R).
    - destruct (negb (coef0 k)); [constructor; now apply rl_er with w|].
      assert (CV : check_value (ps_opts s2) e v c = check_value (ps_opts s2) e' v c).
      { unfold check_value. destruct (unfold_marks _ _ _ _ U) as [-> ->]. reflexivity. }
      rewrite CV. destruct (check_value (ps_opts s2) e' v c); constructor; [exact R|now apply rl_er with w].
    - destruct er; constructor; try exact R; now apply rl_er with w.
  Qed.

  Inductive fields_unfold (A : level) : list expr -> list expr -> Prop :=
  | fu_nil : fields_unfold A [] []
  | fu_cons e e' es es' : unfold_expr A res e = Some e' -> fields_unfold A es es' -> fields_unfold A (e :: es) (e' :: es').

  Lemma sim_map_fields w A O vs es es' : Forall tidy vs -> fields_unfold A es es' ->
    sim (rl w A O) (rl w A O) (er A O) (map_fields en (combine vs es)) (map_fields en (combine vs es')).
  Proof.
    intros T U. revert vs T. induction U as [|e e' es es' U _ IH]; intros vs T.
    - destruct vs; apply sim_ret.
    - destruct T as [|v vs T1 T]; [apply sim_ret|]. cbn [combine map_fields].
      eapply sim_bind; [now apply sim_map_field|]. intros a. eapply sim_bind; [now apply IH|]. intros b. apply sim_ret.
  Qed.
  Lemma sim_map_read w A O vs es es' : Forall tidy vs -> fields_unfold A es es' ->
    sim (rl w A O) (rl w A O) (er A O) (map_read en (combine vs es)) (map_read en (combine vs es')).
  Proof.
    intros T U. unfold map_read. generalize 3%nat. induction n as [|n IH]; cbn [map_tries].
    - apply sim_fail. intros a b. apply rl_er.
    - eapply sim_bind; [now apply sim_map_fields|]. intros [|]; [exact IH|apply sim_ret].
  Qed.
  Lemma sim_map_write w A O es es' : fields_unfold A es es' ->
    sim (rl w A O) (rl w A O) (er A O) (map_write en es) (map_write en es').
  Proof.
    intros U. unfold map_write. apply sim_read; [|intros a b; apply rl_er]. intros s1 s2 R.
    induction U as [|e e' es es' U _ IH]; [reflexivity|]. cbn [mapM]. rewrite IH. unfold eval_known.
    now rewrite (eval_field _ _ _ _ _ _ _ _ _ R U).
  Qed.
  Lemma sim_eval_ctl w A O e e' : unfold_expr A (outside secs O) e = Some e' ->
    sim (rl w A O) (rl w A O) (er A O) (eval_ctl en e) (eval_ctl en e').
  Proof.
    intros U. unfold eval_ctl. apply sim_read; [|intros a b; apply rl_er]. intros s1 s2 R. unfold eval_known. rewrite Hdepth.
    erewrite unfold_eval; [reflexivity| |exact U]. exact (proj2 (rel_sees _ _ _ _ _ _ _ _ _ R)).
  Qed.

  (** ** Control numbers, lines *)

  Lemma get_ctrl_rel w z A O s1 s2 : rel w z A O s1 s2 -> the_ctrl s1 = the_ctrl s2.
  Proof.
    intros R. unfold the_ctrl, get_ctrl. cbv zeta.
    rewrite (rel_ctrl _ _ _ _ _ _ _ _ _ _ $"MAT" R eq_refl), (rel_ctrl _ _ _ _ _ _ _ _ _ _ $"MF" R eq_refl),
      (rel_ctrl _ _ _ _ _ _ _ _ _ _ $"MT" R eq_refl). reflexivity.
  Qed.
  Lemma sim_spec_write w A O cs : sim (rl w A O) (rl w A O) (er A O) (check_spec_write cs) (check_spec_write cs).
  Proof.
    unfold check_spec_write. cbv zeta. apply sim_read; [|intros a b; apply rl_er]. intros s1 s2 R.
    rewrite (rel_ctrl _ _ _ _ _ _ _ _ _ _ $"MAT" R eq_refl), (rel_ctrl _ _ _ _ _ _ _ _ _ _ $"MF" R eq_refl),
      (rel_ctrl _ _ _ _ _ _ _ _ _ _ $"MT" R eq_refl). reflexivity.
  Qed.
  Lemma sim_spec_read w A O cs c : sim (rl w A O) (rl w A O) (er A O) (check_spec_read cs c) (check_spec_read cs c).
  Proof. apply sim_lift. intros a b. apply rl_er. Qed.
  Lemma sim_write_with w A O (f : result ctrl -> result (list str)) :
    sim (rl w A O) (rl w A O) (er A O) (write_with (fun s => f (the_ctrl s))) (write_with (fun s => f (the_ctrl s))).
  Proof.
    intros s1 s2 R. unfold write_with. rewrite (get_ctrl_rel _ _ _ _ _ _ R). destruct (f (the_ctrl s2)) as [ls|e]; constructor.
    - pose proof R as (Rs & _ & NB & _). eapply rel_other; [exact R| | | | | | |]; try reflexivity; [|exact NB|discriminate].
      destruct Rs; constructor; cbn [add_lines ps_loops ps_look ps_lines ps_ofs ps_opts ps_log]; congruence.
    - now apply rl_er with w.
  Qed.
  Lemma sim_read_with {T} w A O (rd : list str -> nat -> result (T * nat)) :
    sim (rl w A O) (rl w A O) (er A O) (read_with rd) (read_with rd).
  Proof.
    intros s1 s2 R. pose proof R as (Rs & _ & NB & _). unfold read_with. rewrite (r_lines _ _ Rs), (r_ofs _ _ Rs).
    destruct (skip_blank_lines (ps_lines s2) (ps_ofs s2)) as [o|e]; [|constructor; now apply rl_er with w].
    destruct (rd (ps_lines s2) o) as [[a o']|e]; [|constructor; now apply rl_er with w]. constructor.
    eapply rel_other; [exact R| | | | | | |]; try reflexivity; [|exact NB|discriminate].
    destruct Rs; constructor; cbn [advance ps_loops ps_look ps_lines ps_ofs ps_opts ps_log]; congruence.
  Qed.
  Lemma sim_update_ctrl A O c : sim (rl true A O) (rl true A O) (er A O) (update_ctrl c) (update_ctrl c).
  Proof.
    apply sim_modify. intros s1 s2 R.
    assert (S : forall x z t1 t2, ctrl_nameb x = true -> rl true A O t1 t2 ->
      rl true A O (set_dic (dset (KStr x) (vint z) (ps_dic t1)) t1) (set_dic (dset (KStr x) (vint z) (ps_dic t2)) t2)).
    { intros x z t1 t2 C Rt. apply rel_dset; [exact Rt|now right| |now apply K_ctrl|constructor].
      intros ->. vm_compute in C. discriminate. }
    exact (S $"MT" (MT c) _ _ eq_refl (S $"MF" (MF c) _ _ eq_refl (S $"MAT" (MAT c) _ _ eq_refl R))).
  Qed.

  (** ** Sections *)

  Lemma sim_open A O u : section_name B secs res A (fst u) = true -> sim (rl true A O) (rl false [] (A :: O)) (er A O) (open_section en u) (open_section en u).
  Proof.
    intros S s1 s2 R. unfold section_name in S. rewrite !andb_true_iff, !negb_true_iff in S. destruct S as (((S1 & S2) & S3) & S4).
    apply data_name_spec in S1. destruct S1 as (H1 & H2 & H3). apply among_in in S4.
    destruct u as [x ix]. cbn [fst] in *. pose proof R as (Rs & F & NB & N & L & W & D). destruct D as [D|[D _]]; [|discriminate].
    assert (HN : ~ In x N) by (intros J; destruct (l_names _ _ _ _ _ _ _ _ L _ J); tauto).
    unfold open_section. rewrite (r_loops _ _ Rs). destruct (mapM (get_indexvalue (ps_loops s2)) ix) as [ids|e]; [|constructor; now apply rl_er with true].
    cbn [bind open_path]. rewrite (lvn_get _ _ _ _ _ _ _ _ _ L HN H3). pose proof (K_out x H2) as Kx.
    assert (KI : Forall (KK res strict) (map KInt ids)) by (apply Forall_forall; intros k J; apply in_map_iff in J as (z & <- & _); exact I).
    assert (G : forall inner o', dtidy res strict inner -> tidy o' ->
      outc (rl false [] (A :: O)) (er A O)
        (Ok tt, set_up ({| fr_dic := dset (KStr x) o' (ps_dic s1); fr_name := x; fr_idx := ids |} :: ps_up s1) (dset (KStr $"__up") VUp inner) s1)
        (Ok tt, set_up ({| fr_dic := dset (KStr x) o' (ps_dic s2); fr_name := x; fr_idx := ids |} :: ps_up s2) (dset (KStr $"__up") VUp inner) s2)).
    { intros inner o' TI TO. constructor. unfold ProofAbbrev2.rel. cbn [set_up ps_up ps_dic ps_loops ps_look].
      split; [destruct Rs; constructor; assumption|]. split.
      { cbn [frs fr_name fr_idx fr_dic]. split; [reflexivity|]. split; [reflexivity|]. split; [now repeat split|]. split; [|exact F].
        exists N. split; [apply lvn_set; auto; now apply not_ab|]. split; [|now apply defd_set].
        rewrite dget_dset_other; [auto|]. intros X. symmetry in X. revert X. now apply not_AB. }
      split; [exact NB|]. exists []. split; [|split; [discriminate|left; intros y a X; discriminate X]].
      apply lvn_same. apply dtidy_set; [now apply K_internal|constructor|exact TI]. }
    destruct (dget (KStr x) (ps_dic s2)) as [o|] eqn:Q.
    - destruct (open_path (negb (e_write en)) x (map KInt ids) o) as [[inner o']|e] eqn:OP; [|constructor; now apply rl_er with true].
      cbn [bind]. pose proof (proj2 (dtidy_get _ _ _ _ _ (l_tidy _ _ _ _ _ _ _ _ L) Q)) as TO.
      destruct (tidy_open _ _ _ _ _ _ _ _ KI TO OP). now apply G.
    - destruct (negb (e_write en)); [|constructor; now apply rl_er with true].
      destruct (open_path true x (map KInt ids) (VDict [])) as [[inner o']|e] eqn:OP; [|constructor; now apply rl_er with true].
      cbn [bind]. assert (T0 : tidy (VDict [])) by (constructor; constructor). destruct (tidy_open _ _ _ _ _ _ _ _ KI T0 OP). now apply G.
  Qed.

  Lemma sim_close A O : sim (rl false [] (A :: O)) (rl true A O) (er A O) close_section close_section.
  Proof.
    intros s1 s2 (Rs & F & NB & N & L & _ & _). destruct (lvn_nil _ _ _ _ _ _ _ L) as (-> & E & T).
    unfold close_section. destruct (ps_up s1) as [|f1 u1], (ps_up s2) as [|f2 u2]; cbn [frs] in F; try tauto.
    destruct F as (P1 & P2 & (S1 & S2 & S3 & S4 & S5) & (M & L' & W' & D') & F). constructor.
    unfold ProofAbbrev2.rel. cbn [set_up ps_up ps_dic ps_loops ps_look].
    split; [destruct Rs; constructor; assumption|]. split; [exact F|]. split; [exact NB|]. exists M.
    rewrite E. clear L. generalize (ddel (KStr $"__up") (ps_dic s2)) (dtidy_del _ _ _ (KStr $"__up") T). clear T E. intros d T.
    assert (HM : ~ In (fr_name f1) M) by (intros J; destruct (l_names _ _ _ _ _ _ _ _ L' _ J); tauto).
    pose proof (lvn_get _ _ _ _ _ _ _ _ _ L' HM S4) as G.
    unfold outer, frame_keys. cbn [put_path]. rewrite <- P1, <- P2, G.
    destruct (dget (KStr (fr_name f1)) (fr_dic f2)) as [o|] eqn:Q; [|auto].
    assert (TO : tidy (put_path (map KInt (fr_idx f1)) (VDict d) o)).
    { apply tidy_put; [now constructor|]. exact (proj2 (dtidy_get _ _ _ _ _ (l_tidy _ _ _ _ _ _ _ _ L') Q)). }
    split; [apply lvn_set; auto; now apply not_ab|]. split; [|left; now apply defd_set].
    intros _. rewrite dget_dset_other; [exact W'|]. intros X. symmetry in X. revert X. now apply not_AB.
  Qed.

  Lemma er_down A O s1 s2 : er [] (A :: O) s1 s2 -> er A O s1 s2.
  Proof. apply ew_down. Qed.

  Lemma sim_in_section {T} A O name (m1 m2 : M T) : table_ok B secs res A name = true ->
    (match name with None => sim (rl true A O) (rl true A O) (er A O) m1 m2
                   | Some _ => sim (rl false [] (A :: O)) (rl false [] (A :: O)) (er [] (A :: O)) m1 m2 end) ->
    sim (rl true A O) (rl true A O) (er A O) (in_section en name m1) (in_section en name m2).
  Proof.
    destruct name as [u|]; cbn [table_ok in_section]; intros S H; [|exact H].
    eapply sim_bind; [now apply sim_open|]. intros _.
    eapply sim_bind; [eapply sim_weak; [| | |exact H]; [intros a b X; exact X|intros a b X; exact X|intros a b; apply er_down]|]. intros a.
    eapply sim_bind; [apply sim_close|]. intros _. apply sim_ret.
  Qed.

  (** ** Loops *)

  Lemma sim_proceed w z A O act : sim (rel w z A O) (rel w z A O) (ew (hidden A) (map hidden O)) (should_proceed act) (should_proceed act).
  Proof.
    intros s1 s2 R. pose proof R as (Rs & _ & NB & _). unfold should_proceed. rewrite (r_look _ _ Rs).
    destruct (ps_look s2) as [n|] eqn:Q; [|now constructor]. destruct (n =? 0) eqn:Z; [now constructor|].
    constructor. destruct act; [|exact R]. eapply rel_other; [exact R| | | | | | |]; try reflexivity.
    - destruct Rs; constructor; cbn [set_look ps_loops ps_look ps_lines ps_ofs ps_opts ps_log]; congruence.
    - exact NB.
    - intros _ X. rewrite (r_look _ _ Rs), Q in X. injection X as ->. discriminate.
  Qed.

  Lemma nob_ldel l x : nob B l -> nob B (ldel x l).
  Proof.
    intros H y J. specialize (H y J). induction l as [|[k v] r IH]; [reflexivity|]. cbn [lget ldel] in *.
    destruct (str_eqb y k) eqn:Q; [discriminate|]. destruct (str_eqb x k); [exact H|]. cbn [lget]. rewrite Q. auto.
  Qed.
  Lemma rel_loops w z A O s1 s2 f : rel w z A O s1 s2 -> (forall l, nob B l -> nob B (f l)) ->
    rel w z A O (set_loops (f (ps_loops s1)) s1) (set_loops (f (ps_loops s2)) s2).
  Proof.
    intros R H. pose proof R as (Rs & _ & NB & _). eapply rel_other; [exact R| | | | | | |]; try reflexivity.
    - destruct Rs; constructor; cbn [set_loops ps_loops ps_look ps_lines ps_ofs ps_opts ps_log]; congruence.
    - apply H, NB.
    - auto.
  Qed.
  Lemma nob_cons v i l : ~ In v B -> nob B l -> nob B ((v, i) :: ldel v l).
  Proof.
    intros V H y J. cbn [lget]. rewrite str_eqb_neq by (intros ->; tauto). now apply nob_ldel.
  Qed.
  Lemma loop_name_spec v : loop_name B v = true -> ~ In v B.
  Proof. unfold loop_name. rewrite negb_true_iff. apply among_out. Qed.

  (** ** Lists *)

  Lemma fields_unfold_1 A e e' : unfold_expr A res e = Some e' -> fields_unfold A [e] [e'].
  Proof. intros H. constructor; [exact H|constructor]. Qed.

  Lemma sim_list_expr w A O e e' ls : unfold_expr A res e = Some e' ->
    sim (rl w A O) (rl w A O) (er A O) (list_expr en e ls) (list_expr en e' ls).
  Proof.
    intros U. destruct ls as [vals pos]. unfold list_expr. destruct (e_write en).
    - eapply sim_bind; [apply sim_map_write, fields_unfold_1, U|]. intros [|v [|? ?]].
      + apply sim_fail. intros a b. apply rl_er.
      + eapply sim_bind; [apply sim_lift; intros a b; apply rl_er|]. intros n. apply sim_ret.
      + apply sim_fail. intros a b. apply rl_er.
    - destruct (nth_error vals pos) as [n|]; [|apply sim_fail; intros a b; apply rl_er].
      eapply sim_bind; [|intros ?; apply sim_ret].
      apply (sim_map_read w A O [vn n] [e] [e']); [repeat constructor|]. now apply fields_unfold_1.
  Qed.

  Lemma sim_iterate_l w A O v (b1 b2 : LM) : ~ In v B ->
    (forall ls, sim (rl w A O) (rl w A O) (er A O) (b1 ls) (b2 ls)) ->
    forall is_ ls, sim (rl w A O) (rl w A O) (er A O) (iterate_l v is_ b1 ls) (iterate_l v is_ b2 ls).
  Proof.
    intros V H. induction is_ as [|i r IH]; intros ls; cbn [iterate_l]; [apply sim_ret|].
    eapply sim_bind.
    - apply sim_modify. intros s1 s2 R. exact (rel_loops _ _ _ _ _ _ (fun l => (v, i) :: ldel v l) R (fun l => nob_cons v i l V)).
    - intros _. eapply sim_bind; [apply H|]. intros ls'. apply IH.
  Qed.
  Lemma sim_list_loop w A O v a a' b b' (b1 b2 : LM) ls : ~ In v B ->
    unfold_expr A (outside secs O) a = Some a' -> unfold_expr A (outside secs O) b = Some b' ->
    (forall ls, sim (rl w A O) (rl w A O) (er A O) (b1 ls) (b2 ls)) ->
    sim (rl w A O) (rl w A O) (er A O) (cycle_list_loop en v a b b1 ls) (cycle_list_loop en v a' b' b2 ls).
  Proof.
    intros V Ua Ub H. unfold cycle_list_loop.
    eapply sim_bind; [now apply sim_eval_ctl|]. intros va. eapply sim_bind; [now apply sim_eval_ctl|]. intros vb.
    eapply sim_bind; [apply sim_lift; intros ? ?; apply rl_er|]. intros za.
    eapply sim_bind; [apply sim_lift; intros ? ?; apply rl_er|]. intros zb.
    intros s1 s2 R. pose proof R as (Rs & _). rewrite (r_loops _ _ Rs). destruct (lget v (ps_loops s2)); [constructor; now apply rl_er with w|].
    revert s1 s2 R Rs. intros s1 s2 R _.
    refine (sim_bind _ _ _ _ _ _ _ _ (sim_iterate_l w A O v b1 b2 V H (zrange za zb) ls) _ s1 s2 R). intros ls'.
    eapply sim_bind; [|intros ?; apply sim_ret]. destruct (za <=? zb); [|apply sim_ret].
    apply sim_modify. intros t1 t2 Rt. exact (rel_loops _ _ _ _ _ _ (ldel v) Rt (fun l => nob_ldel l v)).
  Qed.

  Lemma sim_list_body w A O :
    (forall i i' ls, unfold_item B res A (outside secs O) i = Some i' -> sim (rl w A O) (rl w A O) (er A O) (list_item en i ls) (list_item en i' ls)) /\
    (forall b b' ls, unfold_list B res A (outside secs O) b = Some b' -> sim (rl w A O) (rl w A O) (er A O) (list_body en b ls) (list_body en b' ls)).
  Proof.
    apply lrecipe_mut.
    - intros e i' ls. cbn [unfold_item]. destruct (unfold_expr A res e) eqn:U; [|discriminate]. intros H. injection H as <-.
      now apply sim_list_expr.
    - intros i' [vals pos]. cbn [unfold_item]. intros H. injection H as <-. cbn [list_item]. unfold list_pad. apply sim_ret.
    - intros v a b body IH i' ls. rewrite unfold_loop_eq. destruct (unfold_expr A (outside secs O) a) eqn:Ua; [|discriminate].
      destruct (unfold_expr A (outside secs O) b) eqn:Ub; [|discriminate]. destruct (unfold_list B res A (outside secs O) body) eqn:U; [|discriminate].
      destruct (loop_name B v) eqn:V; [|discriminate]. intros H. injection H as <-. rewrite !list_loop_eq.
      apply sim_list_loop; auto. now apply loop_name_spec.
    - intros b' ls. cbn [unfold_list]. intros H. injection H as <-. apply sim_ret.
    - intros i IHi r IHr b' ls. rewrite unfold_lcons_eq. destruct (unfold_item B res A (outside secs O) i) eqn:Ui; [|discriminate].
      destruct (unfold_list B res A (outside secs O) r) eqn:Ur; [|discriminate]. intros H. injection H as <-. rewrite !list_cons_eq.
      eapply sim_bind; [now apply IHi|]. intros ls'. now apply IHr.
  Qed.
End Sim.
