(** A recipe and the recipe in which the abbreviations are replaced: dictionaries and
    expressions. *)
From Coq Require Import Ascii String ZArith Bool Lia List.
From Verif Require Import PyBase ModelFortran ModelRecords ModelNum ModelRecipe ModelInterp.
From Verif Require Import SpecInterp SpecRound SpecAbbrev ProofPyBase ProofInterp ProofInterpSec ProofInterpMap ProofRound3.
Import ListNotations.
Open Scope Z_scope.

Lemma among_in x l : among x l = true <-> In x l.
Proof.
  unfold among. rewrite existsb_exists. split.
  - intros (y & I & E). apply str_eqb_eq in E. now subst.
  - intros I. exists x. split; [exact I|]. now apply str_eqb_eq.
Qed.
Lemma among_out x l : among x l = false <-> ~ In x l.
Proof. rewrite <- among_in. destruct (among x l); split; congruence. Qed.

(** ** Levels *)

Lemma meaning_in x A o : meaning x A = Some o -> In x (hidden A).
Proof.
  induction A as [|[y p] r IH]; cbn [meaning hidden map fst]; [discriminate|].
  destruct (str_eqb x y) eqn:E; intros H; [left; apply str_eqb_eq in E; now subst|right; auto].
Qed.
Lemma meaning_none x A : meaning x A = None <-> ~ In x (hidden A).
Proof.
  split.
  - induction A as [|[y p] r IH]; cbn [meaning hidden map fst In]; [tauto|].
    destruct (str_eqb x y) eqn:E; [discriminate|]. intros H [<-|I]; [|now apply IH].
    assert (str_eqb y y = true) by now apply str_eqb_eq. congruence.
  - destruct (meaning x A) eqn:E; [|reflexivity]. intros H. destruct H. eapply meaning_in; eassumption.
Qed.
Lemma meaning_app x A A' : meaning x (A ++ A') = match meaning x A with Some o => Some o | None => meaning x A' end.
Proof.
  induction A as [|[y p] r IH]; [reflexivity|]. cbn [meaning app]. destruct (str_eqb x y); [reflexivity|exact IH].
Qed.
Lemma meaning_nones x l : meaning x (map (fun y => (y, None)) l) = if among x l then Some None else None.
Proof.
  induction l as [|y r IH]; [reflexivity|]. cbn [meaning map among existsb]. destruct (str_eqb x y); [reflexivity|exact IH].
Qed.
Lemma meaning_without x l A : meaning x (without l A) = if among x l then None else meaning x A.
Proof.
  induction A as [|[y p] r IH]; [cbn; now destruct (among x l)|]. cbn [without filter fst].
  destruct (among y l) eqn:Y; cbn [negb].
  - fold (without l r). rewrite IH. cbn [meaning]. destruct (str_eqb x y) eqn:E; [|reflexivity].
    apply str_eqb_eq in E. subst. now rewrite Y.
  - fold (without l r). cbn [meaning]. destruct (str_eqb x y) eqn:E; [|exact IH].
    apply str_eqb_eq in E. subst. now rewrite Y.
Qed.
Lemma meaning_forget x l A : meaning x (forget l A) = if among x l then Some None else meaning x A.
Proof.
  unfold forget. rewrite meaning_app, meaning_nones, meaning_without. now destruct (among x l).
Qed.
Lemma hidden_meaning x A : In x (hidden A) <-> meaning x A <> None.
Proof.
  split.
  - intros I E. apply meaning_none in E. tauto.
  - intros H. destruct (meaning x A) eqn:E; [eapply meaning_in; eassumption|congruence].
Qed.
Lemma hidden_forget x l A : In x (hidden (forget l A)) <-> In x l \/ In x (hidden A).
Proof.
  rewrite !hidden_meaning, meaning_forget. destruct (among x l) eqn:E.
  - apply among_in in E. split; [auto|discriminate].
  - apply among_out in E. tauto.
Qed.

(** [A'] knows less than [A] *)
Definition weaker (A A' : level) : Prop :=
  incl (hidden A) (hidden A') /\ forall x a, meaning x A' = Some (Some a) -> meaning x A = Some (Some a).
Lemma weaker_refl A : weaker A A. Proof. split; [apply incl_refl|auto]. Qed.
Lemma weaker_trans A B C : weaker A B -> weaker B C -> weaker A C.
Proof. intros [H1 H2] [H3 H4]. split; [eapply incl_tran; eassumption|auto]. Qed.
Lemma weaker_forget l A : weaker A (forget l A).
Proof.
  split.
  - intros x I. apply hidden_forget. auto.
  - intros x a. rewrite meaning_forget. destruct (among x l); [discriminate|auto].
Qed.
Lemma weaker_forget_mono l l' A A' : incl l l' -> weaker A A' -> weaker (forget l A) (forget l' A').
Proof.
  intros I [H1 H2]. split.
  - intros x J. apply hidden_forget in J. apply hidden_forget. destruct J as [J|J]; auto.
  - intros x a. rewrite !meaning_forget. destruct (among x l') eqn:E; [discriminate|]. intros M.
    replace (among x l) with false; [auto|]. symmetry. apply among_out. apply among_out in E. auto.
Qed.
Lemma weaker_forget_again l A : weaker (forget l (forget l A)) (forget l A).
Proof.
  split.
  - intros x J. apply hidden_forget in J. destruct J as [J|J]; [apply hidden_forget; auto|exact J].
  - intros x a. rewrite !meaning_forget. destruct (among x l); [discriminate|auto].
Qed.
Lemma weaker_after A i l : weaker (forget l (after A i)) (forget (intro_instr i ++ l) A).
Proof.
  assert (G : weaker (forget l (forget (intro_instr i) A)) (forget (intro_instr i ++ l) A)).
  { split.
    - intros x J. apply hidden_forget. rewrite in_app_iff. apply hidden_forget in J.
      destruct J as [J|J]; [auto|]. apply hidden_forget in J. tauto.
    - intros x a. rewrite !meaning_forget. unfold among. rewrite existsb_app.
      destruct (existsb (str_eqb x) (intro_instr i)); cbn [orb]; [discriminate|auto]. }
  destruct i; try exact G. match goal with |- context[IAbbrev ?z _] => rename z into x end. cbn [after intro_instr app]. split.
  - intros y J. apply hidden_forget. cbn [app In]. apply hidden_forget in J.
    destruct J as [J|J]; [auto|]. cbn [hidden map fst In] in J. destruct J as [J|J]; [auto|].
    right. apply hidden_meaning. apply hidden_meaning in J. rewrite meaning_without in J.
    destruct (among y [x]); congruence.
  - intros y a. rewrite !meaning_forget. cbn [app meaning]. rewrite meaning_without. unfold among. cbn [existsb].
    destruct (str_eqb y x); cbn [orb]; [discriminate|]. auto.
Qed.

(** ** Dictionaries *)

Definition kept (N : list str) (k : key) : bool := match k with KStr x => negb (among x N) | KInt _ => true end.
Definition rm (N : list str) (d : dict) : dict := filter (fun kv => kept N (fst kv)) d.
Definition AB : key := KStr $"__abbrevs".
Definition setab (N : list str) (d : dict) : dict := match N with [] => d | _ => dset AB (VNames []) d end.

Lemma rm_cons N k v r : rm N ((k, v) :: r) = if kept N k then (k, v) :: rm N r else rm N r.
Proof. reflexivity. Qed.
Lemma rm_nil d : rm [] d = d.
Proof.
  induction d as [|[k v] r IH]; [reflexivity|]. rewrite rm_cons, IH. now destruct k.
Qed.
Lemma dget_rm_out x N d : ~ In x N -> dget (KStr x) (rm N d) = dget (KStr x) d.
Proof.
  intros H. apply among_out in H. induction d as [|[k v] r IH]; [reflexivity|]. rewrite rm_cons.
  destruct (key_eqb (KStr x) k) eqn:Q.
  - apply key_eqb_eq in Q. subst k. cbn [kept]. rewrite H. cbn [negb dget]. now rewrite key_eqb_refl.
  - destruct (kept N k); cbn [dget]; rewrite Q; exact IH.
Qed.
Lemma dget_rm_in x N d : In x N -> dget (KStr x) (rm N d) = None.
Proof.
  intros H. apply among_in in H. induction d as [|[k v] r IH]; [reflexivity|]. rewrite rm_cons.
  destruct (key_eqb (KStr x) k) eqn:Q.
  - apply key_eqb_eq in Q. subst k. cbn [kept]. rewrite H. exact IH.
  - destruct (kept N k); [cbn [dget]; rewrite Q|]; exact IH.
Qed.
Lemma rm_dset_out x N v d : ~ In x N -> rm N (dset (KStr x) v d) = dset (KStr x) v (rm N d).
Proof.
  intros H. apply among_out in H. induction d as [|[k w] r IH]; cbn [dset].
  - rewrite rm_cons. cbn [kept]. now rewrite H.
  - destruct (key_eqb (KStr x) k) eqn:Q; rewrite !rm_cons.
    + apply key_eqb_eq in Q. subst k. cbn [kept]. rewrite H. cbn [negb dset]. now rewrite key_eqb_refl.
    + destruct (kept N k); [cbn [dset]; rewrite Q; now rewrite IH|exact IH].
Qed.
Lemma rm_dset_in x N v d : In x N -> rm N (dset (KStr x) v d) = rm N d.
Proof.
  intros H. apply among_in in H. induction d as [|[k w] r IH]; cbn [dset].
  - rewrite rm_cons. cbn [kept]. now rewrite H.
  - destruct (key_eqb (KStr x) k) eqn:Q; rewrite !rm_cons.
    + apply key_eqb_eq in Q. subst k. cbn [kept]. now rewrite H.
    + now rewrite IH.
Qed.
Lemma dset_dset_same k v w d : dset k v (dset k w d) = dset k v d.
Proof.
  induction d as [|[k' u] r IH]; cbn [dset]; [now rewrite key_eqb_refl|].
  destruct (key_eqb k k') eqn:Q; cbn [dset]; rewrite Q; [reflexivity|now rewrite IH].
Qed.
Lemma dset_same k v d : dget k d = Some v -> dset k v d = d.
Proof.
  induction d as [|[k' u] r IH]; cbn [dset dget]; [discriminate|].
  destruct (key_eqb k k') eqn:Q; [intros H; injection H as <-; reflexivity|]. intros H. now rewrite IH.
Qed.
(** two keys of which the second is present *)
Lemma dset_comm k k' v w d : k <> k' -> dget k' d <> None -> dset k v (dset k' w d) = dset k' w (dset k v d).
Proof.
  intros N. induction d as [|[q u] r IH]; cbn [dget]; [congruence|].
  destruct (key_eqb k' q) eqn:Q'.
  - intros _. apply key_eqb_eq in Q'. subst q. cbn [dset]. rewrite key_eqb_refl. cbn [dset].
    rewrite (key_eqb_neq k k') by exact N. cbn [dset]. rewrite key_eqb_refl. reflexivity.
  - intros H. specialize (IH H). cbn [dset]. rewrite Q'. cbn [dset].
    destruct (key_eqb k q) eqn:Q; cbn [dset]; rewrite Q'; [reflexivity|]. now rewrite IH.
Qed.
Lemma rm_more x N d : dget (KStr x) d = None -> rm (N ++ [x]) d = rm N d.
Proof.
  induction d as [|[k v] r IH]; [reflexivity|]. cbn [dget].
  destruct (key_eqb (KStr x) k) eqn:Q; [discriminate|]. intros H. specialize (IH H). rewrite !rm_cons, IH.
  replace (kept (N ++ [x]) k) with (kept N k); [reflexivity|]. destruct k as [z|y]; [reflexivity|]. cbn [kept].
  f_equal. destruct (among y N) eqn:E1, (among y (N ++ [x])) eqn:E2; try reflexivity.
  - apply among_in in E1. apply among_out in E2. rewrite in_app_iff in E2. tauto.
  - apply among_out in E1. apply among_in in E2. rewrite in_app_iff in E2. destruct E2 as [E2|[<-|[]]]; [tauto|].
    rewrite key_eqb_refl in Q. discriminate.
Qed.
Lemma ddel_rm x N d : ~ In x N -> ddel (KStr x) (rm N d) = rm N (ddel (KStr x) d).
Proof.
  intros H. apply among_out in H. induction d as [|[k v] r IH]; [reflexivity|]. cbn [ddel]. rewrite rm_cons.
  destruct (key_eqb (KStr x) k) eqn:Q.
  - apply key_eqb_eq in Q. subst k. cbn [kept]. rewrite H. cbn [negb ddel]. now rewrite key_eqb_refl.
  - rewrite rm_cons. destruct (kept N k); [cbn [ddel]; rewrite Q; now rewrite IH|exact IH].
Qed.
Lemma rm_absent x d : dget (KStr x) d = None -> rm [x] d = d.
Proof. intros H. rewrite <- (rm_nil d) at 2. exact (rm_more x [] d H). Qed.
(** removing the one entry of [x] *)
Lemma ddel_filter x d : dget (KStr x) (ddel (KStr x) d) = None -> ddel (KStr x) d = rm [x] d.
Proof.
  induction d as [|[k v] r IH]; [reflexivity|]. cbn [ddel]. rewrite rm_cons.
  destruct (key_eqb (KStr x) k) eqn:Q.
  - apply key_eqb_eq in Q. subst k. intros H. cbn [kept].
    replace (among x [x]) with true by (symmetry; apply among_in; now left). cbn [negb]. now rewrite rm_absent.
  - cbn [dget]. rewrite Q. intros H. rewrite (IH H). destruct k as [z|y]; [reflexivity|]. cbn [kept].
    replace (among y [x]) with false; [reflexivity|]. symmetry. apply among_out. intros [<-|[]].
    rewrite key_eqb_refl in Q. discriminate.
Qed.
Lemma rm_rm N M d : rm N (rm M d) = rm (M ++ N) d.
Proof.
  induction d as [|[k v] r IH]; [reflexivity|]. rewrite !rm_cons.
  assert (Q : kept (M ++ N) k = kept M k && kept N k).
  { destruct k as [z|y]; [reflexivity|]. cbn [kept]. unfold among. rewrite existsb_app. apply negb_orb. }
  rewrite Q. destruct (kept M k); cbn [andb]; [|exact IH]. rewrite rm_cons. now rewrite IH.
Qed.
Lemma ddel_dset k v d : dget k d <> None -> ddel k (dset k v d) = ddel k d.
Proof.
  induction d as [|[q u] r IH]; cbn [dget]; [congruence|]. cbn [dset ddel].
  destruct (key_eqb k q) eqn:Q; cbn [ddel]; rewrite Q; [reflexivity|]. intros H. now rewrite IH.
Qed.
Lemma dget_ddel_None k k' d : dget k d = None -> dget k (ddel k' d) = None.
Proof.
  induction d as [|[q u] r IH]; [reflexivity|]. cbn [dget ddel]. destruct (key_eqb k q) eqn:Q; [discriminate|].
  intros H. destruct (key_eqb k' q); [exact H|]. cbn [dget]. rewrite Q. auto.
Qed.
Lemma ddel_ddel_None x y d : x <> y -> dget (KStr x) (ddel (KStr x) d) = None ->
  dget (KStr x) (ddel (KStr x) (ddel (KStr y) d)) = None.
Proof.
  intros N H. assert (Q : dget (KStr x) (ddel (KStr x) (ddel (KStr y) d)) = dget (KStr x) (ddel (KStr y) (ddel (KStr x) d))).
  { f_equal. clear H. induction d as [|[q u] r IH]; [reflexivity|]. cbn [ddel].
    destruct (key_eqb (KStr x) q) eqn:Qx, (key_eqb (KStr y) q) eqn:Qy; cbn [ddel]; rewrite ?Qx, ?Qy; try reflexivity; [|now rewrite IH].
    apply key_eqb_eq in Qx, Qy. congruence. }
  rewrite Q, dget_ddel_other; [exact H|congruence].
Qed.
Lemma del_names_rm N : forall d, NoDup N ->
  (forall x, In x N -> dget (KStr x) d <> None /\ dget (KStr x) (ddel (KStr x) d) = None) ->
  del_names N d = Ok (rm N d).
Proof.
  induction N as [|x r IH]; intros d ND H; [now rewrite rm_nil|]. cbn [del_names].
  inversion ND as [|? ? X ND']; subst. destruct (H x (or_introl eq_refl)) as [P Q].
  destruct (dget (KStr x) d); [|congruence]. rewrite IH; [|exact ND'|].
  - rewrite (ddel_filter _ _ Q), rm_rm. reflexivity.
  - intros y J. assert (y <> x) by (intros ->; tauto).
    destruct (H y (or_intror J)) as [P1 Q1]. split; [rewrite dget_ddel_other; [exact P1|congruence]|].
    now apply ddel_ddel_None.
Qed.

(** ** Expressions *)

Lemma free_of_vars l e : free_of l e = true -> forall x ix, In (x, ix) (vars_of e) -> ~ In x l /\ internalb x = false.
Proof.
  induction e as [x ix|x ix|de v|a IH|a IHa b IHb|a IHa b IHb|a IHa b IHb|a IHa b IHb|a IHa b IHb]; cbn [free_of vars_of];
    intros H y iy J; try discriminate; try (destruct J; fail); try (now apply IH with iy);
    try (apply andb_true_iff in H; destruct H as [Ha Hb]; apply in_app_or in J; destruct J as [J|J]; eauto).
  apply andb_true_iff in H. destruct H as [Ha Hb]. destruct J as [J|[]]. injection J as <- <-.
  apply negb_true_iff in Ha, Hb. apply among_out in Ha. auto.
Qed.
Lemma free_of_marks l e : free_of l e = true -> has_desired e = false /\ has_incons e = false.
Proof.
  induction e as [x ix|x ix|de v|a IH|a IHa b IHb|a IHa b IHb|a IHa b IHb|a IHa b IHb|a IHa b IHb]; cbn [free_of has_desired has_incons];
    intros H; try discriminate; auto;
    try (apply andb_true_iff in H; destruct H as [Ha Hb]; destruct (IHa Ha), (IHb Hb); split; apply orb_false_iff; auto).
  apply negb_true_iff in H. auto.
Qed.

(** what an expression without hidden names evaluates to does not depend on the depth *)
Lemma eval_depth n m sc lu cast acc e :
  (forall x ix, In (x, ix) (vars_of e) -> forall a, get_raw sc lu x ix <> Ok (VExpr a)) ->
  eval_expr n sc lu cast acc e = eval_expr m sc lu cast acc e.
Proof.
  intros H.
  assert (V : forall x ix, (forall a, get_raw sc lu x ix <> Ok (VExpr a)) ->
            eval_var n sc lu cast acc x ix = eval_var m sc lu cast acc x ix).
  { intros x ix N. unfold eval_var. destruct (get_raw sc lu x ix) as [v|]; [|reflexivity].
    cbn [bind]. destruct v; try reflexivity. destruct (N e0); reflexivity. }
  induction e as [x ix|x ix|de v|a IH|a IHa b IHb|a IHa b IHb|a IHa b IHb|a IHa b IHb|a IHa b IHb];
    rewrite (eval_expr_eq n sc), (eval_expr_eq m sc); cbv zeta;
    try (apply V; apply H; now left); try reflexivity.
  { rewrite IH by exact H. reflexivity. }
  all: rewrite IHa, IHb; [reflexivity| |]; intros x ix J; apply H; cbn [vars_of]; apply in_or_app; auto.
Qed.

Lemma unfold_vars A bad e : forall e', unfold_expr A bad e = Some e' ->
  forall x ix, In (x, ix) (vars_of e') -> ~ In x (hidden A) /\ ~ In x bad /\ internalb x = false.
Proof.
  induction e as [x ix|x ix|de v|a IH|a IHa b IHb|a IHa b IHb|a IHa b IHb|a IHa b IHb|a IHa b IHb]; cbn [unfold_expr]; intros e' H y iy J.
  - destruct (meaning x A) as [[a|]|] eqn:M; [|discriminate|].
    + destruct (free_of (hidden A ++ bad) a && match ix with [] => true | _ => false end) eqn:F; [|discriminate]. injection H as <-.
      apply andb_true_iff in F. destruct F as [F _].
      destruct (free_of_vars _ _ F _ _ J) as [P Q]. rewrite in_app_iff in P. tauto.
    + destruct (among x bad || internalb x) eqn:F; [discriminate|]. injection H as <-. destruct J as [J|[]].
      injection J as <- <-. apply orb_false_iff in F. destruct F as [F1 F2]. apply among_out in F1. apply meaning_none in M. auto.
  - destruct (among x (hidden A) || among x bad || internalb x) eqn:F; [discriminate|]. injection H as <-. destruct J as [J|[]].
    injection J as <- <-. apply orb_false_iff in F. destruct F as [F F2]. apply orb_false_iff in F. destruct F as [F F1].
    apply among_out in F, F1. auto.
  - injection H as <-. destruct J.
  - destruct (unfold_expr A bad a); [|discriminate]. injection H as <-. eapply IH; [reflexivity|exact J].
  - destruct (unfold_expr A bad a); [|discriminate]. destruct (unfold_expr A bad b); [|discriminate]. injection H as <-.
    apply in_app_or in J. destruct J as [J|J]; [eapply IHa|eapply IHb]; try reflexivity; exact J.
  - destruct (unfold_expr A bad a); [|discriminate]. destruct (unfold_expr A bad b); [|discriminate]. injection H as <-.
    apply in_app_or in J. destruct J as [J|J]; [eapply IHa|eapply IHb]; try reflexivity; exact J.
  - destruct (unfold_expr A bad a); [|discriminate]. destruct (unfold_expr A bad b); [|discriminate]. injection H as <-.
    apply in_app_or in J. destruct J as [J|J]; [eapply IHa|eapply IHb]; try reflexivity; exact J.
  - destruct (unfold_expr A bad a); [|discriminate]. destruct (unfold_expr A bad b); [|discriminate]. injection H as <-.
    apply in_app_or in J. destruct J as [J|J]; [eapply IHa|eapply IHb]; try reflexivity; exact J.
  - destruct (unfold_expr A bad a); [|discriminate]. destruct (unfold_expr A bad b); [|discriminate]. injection H as <-.
    apply in_app_or in J. destruct J as [J|J]; [eapply IHa|eapply IHb]; try reflexivity; exact J.
Qed.
Lemma unfold_marks A bad e : forall e', unfold_expr A bad e = Some e' ->
  has_desired e' = has_desired e /\ has_incons e' = has_incons e.
Proof.
  induction e as [x ix|x ix|de v|a IH|a IHa b IHb|a IHa b IHb|a IHa b IHb|a IHa b IHb|a IHa b IHb]; cbn [unfold_expr]; intros e' H.
  - destruct (meaning x A) as [[a|]|] eqn:M; [|discriminate|].
    + destruct (free_of (hidden A ++ bad) a && match ix with [] => true | _ => false end) eqn:F; [|discriminate]. injection H as <-.
      apply andb_true_iff in F. destruct F as [F _]. exact (free_of_marks _ _ F).
    + destruct (among x bad || internalb x) eqn:F; [discriminate|]. injection H as <-. auto.
  - destruct (among x (hidden A) || among x bad || internalb x) eqn:F; [discriminate|]. injection H as <-. auto.
  - injection H as <-. auto.
  - destruct (unfold_expr A bad a); [|discriminate]. injection H as <-. exact (IH _ eq_refl).
  - destruct (unfold_expr A bad a); [|discriminate]. destruct (unfold_expr A bad b); [|discriminate]. injection H as <-.
    cbn [has_desired has_incons]. destruct (IHa _ eq_refl), (IHb _ eq_refl). split; congruence.
  - destruct (unfold_expr A bad a); [|discriminate]. destruct (unfold_expr A bad b); [|discriminate]. injection H as <-.
    cbn [has_desired has_incons]. destruct (IHa _ eq_refl), (IHb _ eq_refl). split; congruence.
  - destruct (unfold_expr A bad a); [|discriminate]. destruct (unfold_expr A bad b); [|discriminate]. injection H as <-.
    cbn [has_desired has_incons]. destruct (IHa _ eq_refl), (IHb _ eq_refl). split; congruence.
  - destruct (unfold_expr A bad a); [|discriminate]. destruct (unfold_expr A bad b); [|discriminate]. injection H as <-.
    cbn [has_desired has_incons]. destruct (IHa _ eq_refl), (IHb _ eq_refl). split; congruence.
  - destruct (unfold_expr A bad a); [|discriminate]. destruct (unfold_expr A bad b); [|discriminate]. injection H as <-.
    cbn [has_desired has_incons]. destruct (IHa _ eq_refl), (IHb _ eq_refl). split; congruence.
Qed.

(** the two scopes agree on all names that are not abbreviations, and those stand for what
    the level says *)
Definition sees (A : level) (bad : list str) (lu : bool) (sc1 sc2 : scope) : Prop :=
  (forall x ix, ~ In x (hidden A) -> ~ In x bad -> internalb x = false ->
     get_raw sc1 lu x ix = get_raw sc2 lu x ix /\ forall a, get_raw sc1 lu x ix <> Ok (VExpr a)) /\
  (forall x a, meaning x A = Some (Some a) -> get_raw sc1 lu x [] = Ok (VExpr a)).

Lemma unfold_eval A bad lu sc1 sc2 n cast acc e : sees A bad lu sc1 sc2 ->
  forall e', unfold_expr A bad e = Some e' ->
  eval_expr (S n) sc1 lu cast acc e = eval_expr (S n) sc2 lu cast acc e'.
Proof.
  intros [S1 S2].
  assert (V : forall x ix, ~ In x (hidden A) -> ~ In x bad -> internalb x = false ->
            eval_var (S n) sc1 lu cast acc x ix = eval_var (S n) sc2 lu cast acc x ix).
  { intros x ix X1 X2 X3. destruct (S1 x ix X1 X2 X3) as [Q N]. unfold eval_var. rewrite <- Q.
    destruct (get_raw sc1 lu x ix) as [v|]; [|reflexivity]. cbn [bind]. destruct v; try reflexivity. destruct (N e0); reflexivity. }
  induction e as [x ix|x ix|de v|a IH|a IHa b IHb|a IHa b IHb|a IHa b IHb|a IHa b IHb|a IHa b IHb]; cbn [unfold_expr]; intros e' H.
  - destruct (meaning x A) as [[a|]|] eqn:M; [|discriminate|].
    + destruct (free_of (hidden A ++ bad) a && match ix with [] => true | _ => false end) eqn:F; [|discriminate]. injection H as <-.
      apply andb_true_iff in F. destruct F as [F Z]. destruct ix; [clear Z|discriminate].
      assert (W : forall y iy, In (y, iy) (vars_of a) -> get_raw sc1 lu y iy = get_raw sc2 lu y iy /\ forall b, get_raw sc1 lu y iy <> Ok (VExpr b)).
      { intros y iy J. destruct (free_of_vars _ _ F _ _ J) as [P Q]. rewrite in_app_iff in P. apply S1; tauto. }
      rewrite <- (eval_agree (S n) sc1 sc2 lu cast acc a W), (eval_depth (S n) n sc1 lu cast acc a) by (intros y iy J; exact (proj2 (W y iy J))).
      rewrite eval_expr_eq. cbv zeta. unfold eval_var. rewrite (S2 _ _ M). cbn [bind].
      destruct (eval_expr n sc1 lu cast acc a) as [t|er] eqn:Q; [reflexivity|].
      replace (missing acc er) with false; [reflexivity|]. symmetry. destruct acc; [|reflexivity].
      exact (eval_no_missing _ _ _ _ _ _ Q).
    + destruct (among x bad || internalb x) eqn:F; [discriminate|]. injection H as <-.
      apply orb_false_iff in F. destruct F as [F1 F2]. apply among_out in F1. apply meaning_none in M.
      rewrite !eval_expr_eq. cbv zeta. now apply V.
  - destruct (among x (hidden A) || among x bad || internalb x) eqn:F; [discriminate|]. injection H as <-.
    apply orb_false_iff in F. destruct F as [F F2]. apply orb_false_iff in F. destruct F as [F F1].
    apply among_out in F, F1. rewrite !eval_expr_eq. cbv zeta. now apply V.
  - injection H as <-. rewrite !eval_expr_eq. reflexivity.
  - destruct (unfold_expr A bad a); [|discriminate]. injection H as <-. rewrite !(eval_expr_eq (S n)). cbv zeta. now rewrite (IH _ eq_refl).
  - destruct (unfold_expr A bad a); [|discriminate]. destruct (unfold_expr A bad b); [|discriminate]. injection H as <-.
    rewrite !(eval_expr_eq (S n)). cbv zeta. now rewrite (IHa _ eq_refl), (IHb _ eq_refl).
  - destruct (unfold_expr A bad a); [|discriminate]. destruct (unfold_expr A bad b); [|discriminate]. injection H as <-.
    rewrite !(eval_expr_eq (S n)). cbv zeta. now rewrite (IHa _ eq_refl), (IHb _ eq_refl).
  - destruct (unfold_expr A bad a); [|discriminate]. destruct (unfold_expr A bad b); [|discriminate]. injection H as <-.
    rewrite !(eval_expr_eq (S n)). cbv zeta. now rewrite (IHa _ eq_refl), (IHb _ eq_refl).
  - destruct (unfold_expr A bad a); [|discriminate]. destruct (unfold_expr A bad b); [|discriminate]. injection H as <-.
    rewrite !(eval_expr_eq (S n)). cbv zeta. now rewrite (IHa _ eq_refl), (IHb _ eq_refl).
  - destruct (unfold_expr A bad a); [|discriminate]. destruct (unfold_expr A bad b); [|discriminate]. injection H as <-.
    rewrite !(eval_expr_eq (S n)). cbv zeta. now rewrite (IHa _ eq_refl), (IHb _ eq_refl).
Qed.

(** the unknown of an expression is one of its variables *)
Lemma eval_unknown_var n sc lu cast acc e :
  (forall x ix, In (x, ix) (vars_of e) -> forall a, get_raw sc lu x ix <> Ok (VExpr a)) ->
  forall c k u, eval_expr n sc lu cast acc e = Ok (c, k, Some u) -> In u (vars_of e).
Proof.
  assert (V : forall x ix, (forall a, get_raw sc lu x ix <> Ok (VExpr a)) ->
            forall c k u, eval_var n sc lu cast acc x ix = Ok (c, k, Some u) -> u = (x, ix)).
  { intros x ix N c k u. unfold eval_var. destruct (get_raw sc lu x ix) as [v|er]; cbn [bind].
    - destruct v; try discriminate. destruct (N e0); reflexivity.
    - destruct (missing acc er); [|discriminate]. intros H. injection H as _ _ <-. reflexivity. }
  induction e as [x ix|x ix|de v|a IH|a IHa b IHb|a IHa b IHb|a IHa b IHb|a IHa b IHb|a IHa b IHb]; intros N c k u;
    rewrite eval_expr_eq; cbv zeta; cbn [vars_of]; intros H.
  1, 2: left; symmetry; eapply V; [|exact H]; apply N; now left.
  - discriminate.
  - destruct (eval_expr n sc lu cast acc a) as [[[c0 k0] u0]|]; [|discriminate]. cbn [bind] in H.
    apply bind_ok in H as (? & _ & H). apply bind_ok in H as (? & _ & H). injection H as _ _ ->. eapply IH; [exact N|reflexivity].
  - destruct (eval_expr n sc lu cast acc a) as [[[c1 k1] u1]|]; [|discriminate].
    destruct (eval_expr n sc lu cast acc b) as [[[c2 k2] u2]|]; [|discriminate]. cbn [bind] in H.
    destruct (negb (coef0 k1) && negb (coef0 k2)); [discriminate|].
    apply bind_ok in H as (? & _ & H). apply bind_ok in H as (? & _ & H). injection H as _ _ H.
    apply in_or_app. destruct (coef0 k1); subst; [right; eapply IHb|left; eapply IHa]; try reflexivity; intros y iy J; apply N; apply in_or_app; auto.
  - destruct (eval_expr n sc lu cast acc a) as [[[c1 k1] u1]|]; [|discriminate].
    destruct (eval_expr n sc lu cast acc b) as [[[c2 k2] u2]|]; [|discriminate]. cbn [bind] in H.
    destruct (negb (coef0 k1) && negb (coef0 k2)); [discriminate|].
    apply bind_ok in H as (? & _ & H). apply bind_ok in H as (? & _ & H). injection H as _ _ H.
    apply in_or_app. destruct (coef0 k1); subst; [right; eapply IHb|left; eapply IHa]; try reflexivity; intros y iy J; apply N; apply in_or_app; auto.
  - destruct (eval_expr n sc lu cast acc a) as [[[c1 k1] u1]|]; [|discriminate].
    destruct (eval_expr n sc lu cast acc b) as [[[c2 k2] u2]|]; [|discriminate]. cbn [bind] in H.
    destruct (negb (coef0 k1) && negb (coef0 k2)); [discriminate|]. apply in_or_app.
    destruct (coef0 k1); apply bind_ok in H as (? & _ & H); apply bind_ok in H as (? & _ & H); injection H as _ _ H; subst;
      [right; eapply IHb|left; eapply IHa]; try reflexivity; intros y iy J; apply N; apply in_or_app; auto.
  - destruct (eval_expr n sc lu cast acc a) as [[[c1 k1] u1]|]; [|discriminate].
    destruct (eval_expr n sc lu cast acc b) as [[[c2 k2] u2]|]; [|discriminate]. cbn [bind] in H.
    destruct (negb (coef0 k2)); [discriminate|]. apply in_or_app.
    apply bind_ok in H as (? & _ & H); apply bind_ok in H as (? & _ & H); injection H as _ _ H; subst.
    left; eapply IHa; [|reflexivity]. intros y iy J; apply N; apply in_or_app; auto.
  - destruct (eval_expr n sc lu cast acc a) as [[[c1 k1] u1]|]; [|discriminate].
    destruct (eval_expr n sc lu cast acc b) as [[[c2 k2] u2]|]; [|discriminate]. cbn [bind] in H.
    destruct (negb (coef0 k1) || negb (coef0 k2)); [discriminate|].
    apply bind_ok in H as (? & _ & H). discriminate.
Qed.
