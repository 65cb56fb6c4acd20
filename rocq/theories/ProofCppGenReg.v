(** What the generator knows after a part of a recipe; notes of a run. *)
From Coq Require Import Ascii String ZArith Bool Lia List.
From Verif Require Import PyBase ProofPyBase PyFloat ModelFortran ModelRecords ModelNum ModelRecipe ModelInterp
  ModelCpp ModelCppTab ModelCppArr SpecCpp SpecCppTab SpecCppRead ModelCppGen SpecCppGen.
From Verif Require Import ProofInterp ProofInterpSec ProofInterpFrame ProofInterpMap.
From Verif Require Import ProofCppGenRead ProofCppGenMap ProofCppGenEval.
Import ListNotations.
Open Scope Z_scope.

(** ** Registration *)

(** [b] knows what [a] knows, and else only names in [l] *)
Definition adds (a b : vars) (l : list str) : Prop :=
  sub a b /\ forall x k, kget x b = Some k -> kget x a = Some k \/ In x l.
Lemma adds_refl a l : adds a a l.
Proof. split; [apply sub_refl|auto]. Qed.
Lemma adds_trans a b c l m : adds a b l -> adds b c m -> adds a c (l ++ m).
Proof.
  intros [S1 N1] [S2 N2]. split; [eapply sub_trans; eauto|]. intros x k K. rewrite in_app_iff. apply N2 in K as [K|K]; [|auto].
  apply N1 in K as [K|K]; auto.
Qed.
Lemma adds_weak a b l m : adds a b l -> incl l m -> adds a b m.
Proof. intros [S N] I. split; [exact S|]. intros x k K. apply N in K as [K|K]; auto. Qed.
Lemma kadd_adds x k a : adds a (kadd x k a) [x].
Proof. split; [apply kadd_sub|]. intros y j K. apply kadd_inv in K as [K|[-> _]]; [auto|right; now left]. Qed.

Lemma reg_field_adds up lv t cur e cur' : reg_field up lv t cur e = Some cur' -> adds cur cur' (field_name e).
Proof.
  unfold reg_field. destruct (plan_of up lv cur t e) as [p|] eqn:P; [|discriminate]. intros H. injection H as <-.
  assert (V : forall x ix, plan_var up lv cur t x ix = Some p -> adds cur (reg_plan t cur p) [x]).
  { intros x ix PV. unfold plan_var in PV. destruct (known x lv); [discriminate|]. destruct (indices_ok lv ix); [|discriminate].
    destruct (resolve x (cur :: up)) as [[n k]|].
    - destruct (kind_eqb _ _); [|discriminate]. injection PV as <-. apply kadd_adds.
    - injection PV as <-. apply kadd_adds. }
  destruct e as [x ix|x ix|dz n| | | | | |]; cbn [plan_of field_name] in *; try discriminate; eauto.
  destruct n; try discriminate P; injection P as <-; apply adds_refl.
Qed.
Definition cf_names (fs : cfields) : list str := flat_map (fun p => field_name (snd p)) fs.
Lemma reg_fields_adds up lv fs : forall cur cur', reg_fields up lv cur fs = Some cur' -> adds cur cur' (cf_names fs).
Proof.
  induction fs as [|[[j t] e] fs IH]; intros cur cur' H; cbn [reg_fields] in H; [injection H as <-; apply adds_refl|].
  destruct (reg_field up lv t cur e) as [c1|] eqn:R; [|discriminate]. apply reg_field_adds in R. apply IH in H.
  cbn [cf_names flat_map snd]. eapply adds_trans; eauto.
Qed.
Lemma cf_names_head f : incl (cf_names (head_fields f)) (fields_names f).
Proof. intros x. unfold cf_names, fields_names, head_fields, fields_list. cbn [flat_map snd]. rewrite !in_app_iff. tauto. Qed.
Lemma cf_names_cont f : incl (cf_names (cont_fields f)) (fields_names f).
Proof. intros x. unfold cf_names, fields_names, cont_fields, head_fields, fields_list. cbn [flat_map snd app]. rewrite !in_app_iff. tauto. Qed.
Lemma cf_names_tab2 f : incl (cf_names (tab2_fields f)) (fields_names f).
Proof. intros x. unfold cf_names, fields_names, tab2_fields, head_fields, fields_list. cbn [flat_map snd app]. rewrite !in_app_iff. tauto. Qed.

Lemma reg_column_inv up lv cur x cur' : reg_column up lv cur x = Some cur' ->
  known x lv = false /\ kget x cur' = Some KTab /\ cur' = kadd x KTab cur.
Proof.
  unfold reg_column. destruct (known x lv); [discriminate|]. cbn [resolve]. unfold kadd. destruct (kget x cur) as [k|] eqn:K.
  - destruct k; try discriminate. intros H. injection H as <-. auto.
  - intros H. assert (cur' = cur ++ [(x, KTab)]) as ->.
    { destruct (resolve x up) as [[n k]|]; [destruct k; try discriminate H|]; now injection H. }
    split; [reflexivity|]. split; [|reflexivity]. rewrite kget_app, K. cbn [kget]. now rewrite str_eqb_refl.
Qed.
Lemma reg_columns_adds up lv xs : forall cur cur', reg_columns up lv cur xs = Some cur' ->
  adds cur cur' xs /\ (forall x, In x xs -> known x lv = false /\ kget x cur' = Some KTab).
Proof.
  induction xs as [|x xs IH]; intros cur cur' H; cbn [reg_columns] in H.
  { injection H as <-. split; [apply adds_refl|]. intros x []. }
  destruct (reg_column up lv cur x) as [c1|] eqn:R; [|discriminate]. apply reg_column_inv in R as (KN & KG & ->).
  destruct (IH _ _ H) as (A & C). split; [apply (adds_trans _ _ _ [x] xs (kadd_adds x KTab cur) A)|].
  intros y [<-|I]; [|now apply C]. split; [exact KN|]. now apply A.
Qed.

Lemma reg_section_inv up lv cur x ix body cur' : reg_section up lv cur (x, ix) body = Some cur' ->
  known x lv = false /\ forallb (index_ok lv) ix = true /\ cur' = kadd x KSec cur /\ kget x cur' = Some KSec /\
  exists c, body (cur' :: up) [] = Some c.
Proof.
  unfold reg_section. destruct (known x lv); [discriminate|]. cbn [orb]. destruct (forallb (index_ok lv) ix); [|discriminate]. cbn [negb].
  cbn [resolve]. destruct (kget x cur) as [k|] eqn:K.
  - destruct k; try discriminate. destruct (body (cur :: up) []) as [c|] eqn:B; [|discriminate]. intros H. injection H as <-.
    do 2 (split; [reflexivity|]). split; [unfold kadd; now rewrite K|]. eauto.
  - destruct (resolve x up) as [[n k]|]; [destruct k; discriminate|].
    destruct (body (kadd x KSec cur :: up) []) as [c|] eqn:B; [|discriminate]. intros H. injection H as <-.
    do 3 (split; [reflexivity|]). split; [now apply kadd_get|]. eauto.
Qed.
Lemma reg_section_adds up lv cur x ix body cur' : reg_section up lv cur (x, ix) body = Some cur' -> adds cur cur' [x].
Proof. intros H. apply reg_section_inv in H as (_ & _ & -> & _). apply kadd_adds. Qed.
Lemma reg_named_adds up lv cur name body cur' l : reg_named up lv cur name body = Some cur' ->
  (forall c, body up cur = Some c -> adds cur c l) -> adds cur cur' (named name l).
Proof.
  destruct name as [[x ix]|]; cbn [reg_named named fst]; [|eauto]. intros H _. eapply reg_section_adds; eauto.
Qed.

Lemma merge_sub b : forall a m, merge a b = Some m ->
  sub a m /\ sub b m /\ forall x k, kget x m = Some k -> kget x a = Some k \/ kget x b = Some k.
Proof.
  induction b as [|[x k] b IH]; intros a m H; cbn [merge] in H.
  - injection H as <-. split; [apply sub_refl|]. split; [intros x k K; discriminate K|auto].
  - destruct (kget x a) as [k'|] eqn:K.
    + destruct (kind_eqb k k') eqn:E; [|discriminate]. apply kind_eqb_eq in E. subst k'. destruct (IH _ _ H) as (A & B & C).
      split; [exact A|]. split; intros y j Y; cbn [kget] in *; destruct (str_eqb y x) eqn:YX.
      * injection Y as <-. apply str_eqb_eq in YX. subst y. now apply A.
      * now apply B.
      * apply str_eqb_eq in YX. subst y. left. apply A in K as KM. congruence.
      * auto.
    + destruct (IH _ _ H) as (A & B & C).
      assert (AX : sub a (a ++ [(x, k)])) by (intros y j Y; now rewrite kget_app, Y).
      assert (X : kget x (a ++ [(x, k)]) = Some k) by (rewrite kget_app, K; cbn [kget]; now rewrite str_eqb_refl).
      split; [eapply sub_trans; eauto|]. split; intros y j Y; cbn [kget] in *; destruct (str_eqb y x) eqn:YX.
      * injection Y as <-. apply str_eqb_eq in YX. subst y. now apply A.
      * now apply B.
      * apply str_eqb_eq in YX. subst y. right. apply A in X. congruence.
      * apply C in Y as [Y|Y]; [|auto]. rewrite kget_app in Y. destruct (kget y a); [auto|]. cbn [kget] in Y. rewrite YX in Y. discriminate.
Qed.
Lemma merge_adds a b m c l r : merge a b = Some m -> adds c a l -> adds c b r -> adds c m (l ++ r).
Proof.
  intros H [S1 N1] [S2 N2]. apply merge_sub in H as (A & B & C). split; [eapply sub_trans; eauto|].
  intros x k K. rewrite in_app_iff. apply C in K as [K|K]; [apply N1 in K|apply N2 in K]; tauto.
Qed.

Lemma reg_list_adds :
  (forall i up lv cur cur', reg_litem up lv cur i = Some cur' -> adds cur cur' (litem_names i)) /\
  (forall b up lv cur cur', reg_lbody up lv cur b = Some cur' -> adds cur cur' (lbody_names b)).
Proof.
  apply lrecipe_mut; cbn [reg_litem reg_lbody litem_names lbody_names]; try discriminate.
  - intros e up lv cur cur' H. eapply reg_field_adds; eauto.
  - intros v a b body IH up lv cur cur' H. destruct (loop_ok _ _ _ _ _ _); [|discriminate]. eauto.
  - intros up lv cur cur' H. injection H as <-. apply adds_refl.
  - intros i IHi r IHr up lv cur cur' H. destruct (reg_litem up lv cur i) as [c1|] eqn:E; [|discriminate]. eapply adds_trans; eauto.
Qed.

Lemma distinct_nodup l : distinct l = true -> NoDup l.
Proof.
  induction l as [|x l IH]; cbn [distinct]; intros H; [constructor|]. apply andb_true_iff in H as [A B]. constructor; [|auto].
  intros I. apply negb_true_iff in A. unfold known in A. assert (existsb (str_eqb x) l = true) by (apply existsb_exists; exists x; split; [exact I|apply str_eqb_refl]). congruence.
Qed.
Lemma tab_columns_inv x y cols : tab_columns x y = Some cols ->
  snd x = [] /\ snd y = [] /\ cols = [fst x; fst y; $"INT"; $"NBT"] /\ NoDup [fst x; fst y; $"INT"; $"NBT"].
Proof.
  unfold tab_columns. destruct (snd x), (snd y); try discriminate. destruct (distinct _) eqn:D; [|discriminate]. intros H. injection H as <-.
  apply distinct_nodup in D. auto.
Qed.

Lemma cf_names_dir l1 l2 n1 n2 : cf_names (dir_fields l1 l2 n1 n2) = flat_map field_name [l1; l2; n1; n2].
Proof. reflexivity. Qed.
Lemma reg_text_adds lv fs : forall cur first ofs cur', reg_text lv cur first ofs fs = Some cur' -> adds cur cur' (text_names fs).
Proof.
  induction fs as [|[u n] fs IH]; intros cur first ofs cur' H; cbn [reg_text] in H; [injection H as <-; apply adds_refl|].
  destruct (text_length first (u, n)) as [len|]; [|discriminate]. destruct (66 <? ofs + len)%nat; [discriminate|].
  unfold text_names. cbn [flat_map fst]. fold (text_names fs). destruct u as [[x ix]|]; [|exact (IH _ _ _ _ H)].
  destruct (known x lv); [discriminate|]. destruct (indices_ok lv ix) as [arr|]; [|discriminate]. destruct (kget x cur); [discriminate|].
  eapply adds_trans; [apply kadd_adds|exact (IH _ _ _ _ H)].
Qed.

Lemma reg_adds :
  (forall i up lv cur cur', reg_instr up lv cur i = Some cur' -> adds cur cur' (own_names i)) /\
  (forall b up lv cur cur', reg_block up lv cur b = Some cur' -> adds cur cur' (own_names_block b)) /\
  (forall b up lv cur cur', reg_branch up lv cur b = Some cur' -> adds cur cur' (own_names_branch b)) /\
  (forall r up lv cur acc acc' l, reg_branches up lv cur acc r = Some acc' -> adds cur acc l -> adds cur acc' (l ++ own_names_branches r) /\ sub acc acc').
Proof.
  apply recipe_mut; cbn [reg_instr reg_block reg_branch reg_branches own_names own_names_block own_names_branch own_names_branches]; try discriminate.
  - intros head cs f up lv cur cur' H. destruct head; [discriminate|]. apply reg_fields_adds in H. eapply adds_weak; [exact H|apply cf_names_cont].
  - intros cs f up lv cur cur' H. destruct up; [|discriminate]. eapply reg_text_adds; eauto.
  - intros cs l1 l2 n1 n2 up lv cur cur' H. apply reg_fields_adds in H. now rewrite cf_names_dir in H.
  - intros cs f x y name up lv cur cur' H. destruct (reg_fields up lv cur (head_fields f)) as [c1|] eqn:R; [|discriminate].
    destruct (tab_columns x y) as [cols|] eqn:T; [|discriminate]. apply reg_fields_adds in R.
    eapply adds_trans; [eapply adds_weak; [exact R|apply cf_names_head]|]. eapply reg_named_adds; [exact H|]. intros c C. cbn beta in C.
    apply reg_columns_adds in C as (C & _). eapply adds_weak; [exact C|]. apply tab_columns_inv in T as (_ & _ & -> & _). intros z. cbn. tauto.
  - intros cs f name up lv cur cur' H. destruct (reg_fields up lv cur (tab2_fields f)) as [c1|] eqn:R; [|discriminate]. apply reg_fields_adds in R.
    eapply adds_trans; [eapply adds_weak; [exact R|apply cf_names_tab2]|]. eapply reg_named_adds; [exact H|]. intros c C. cbn beta in C.
    apply reg_columns_adds in C as (C & _). eapply adds_weak; [exact C|]. intros z. cbn. tauto.
  - intros cs f body name up lv cur cur' H. destruct (reg_fields up lv cur (cont_fields f)) as [c1|] eqn:R; [|discriminate]. apply reg_fields_adds in R.
    eapply adds_trans; [eapply adds_weak; [exact R|apply cf_names_cont]|]. eapply reg_named_adds; [exact H|]. intros c C. cbn beta in C.
    now apply (proj2 reg_list_adds) in C.
  - intros up lv cur cur' H. injection H as <-. apply adds_refl.
  - intros [x ix] tail body IH up lv cur cur' H. cbn [fst]. eapply reg_section_adds; eauto.
  - intros v a b body IH up lv cur cur' H. destruct (loop_ok _ _ _ _ _ _); [|discriminate]. eauto.
  - intros first IH1 more IH2 els IH3 up lv cur cur' H. destruct (reg_branch up lv cur first) as [c1|] eqn:E1; [|discriminate].
    destruct (reg_branches up lv cur c1 more) as [c2|] eqn:E2; [|discriminate].
    destruct (reg_block up lv cur els) as [c3|] eqn:E3; [|discriminate].
    rewrite app_assoc. eapply merge_adds; [exact H| |eauto]. destruct (IH2 _ _ _ _ _ (own_names_branch first) E2) as [A _]; [eauto|exact A].
  - intros up lv cur cur' H. injection H as <-. apply adds_refl.
  - intros i IHi r IHr up lv cur cur' H. destruct (reg_instr up lv cur i) as [c1|] eqn:E; [|discriminate]. eapply adds_trans; eauto.
  - intros c la body IH up lv cur cur' H. destruct la; [discriminate|]. destruct (int_cond _ _ _ _); [|discriminate]. eauto.
  - intros up lv cur acc acc' l H A. injection H as <-. rewrite app_nil_r. split; [exact A|apply sub_refl].
  - intros b IHb r IHr up lv cur acc acc' l H A. destruct (reg_branch up lv cur b) as [c1|] eqn:E; [|discriminate].
    destruct (merge acc c1) as [acc1|] eqn:M; [|discriminate]. pose proof M as M'. apply merge_sub in M' as (MS & _).
    destruct (IHr _ _ _ _ _ (l ++ own_names_branch b) H) as [Q1 Q2]; [eapply merge_adds; eauto|].
    rewrite app_assoc. split; [exact Q1|]. eapply sub_trans; eauto.
Qed.

(** ** Notes *)

Definition grows (s s' : cstate) : Prop := exists l, k_notes s' = k_notes s ++ l.
Lemma grows_refl s : grows s s. Proof. exists []. now rewrite app_nil_r. Qed.
Lemma grows_trans a b c : grows a b -> grows b c -> grows a c.
Proof. intros [l E] [m G]. exists (l ++ m). now rewrite G, E, app_assoc. Qed.
Lemma grows_regular s s' : grows s s' -> Forall regular_note (k_notes s') -> Forall regular_note (k_notes s).
Proof. intros [l E] H. rewrite E in H. now apply Forall_app in H as [H _]. Qed.
Lemma grows_same s s' : k_notes s' = k_notes s -> grows s s'.
Proof. intros E. exists []. now rewrite app_nil_r. Qed.
Lemma grows_notes s l : grows s (with_notes l s).
Proof. now exists l. Qed.

Ltac cb H := match type of H with
  | cbind ?m _ = Val _ => let E := fresh "E" in destruct m eqn:E; try discriminate H; cbn [cbind] in H
  end.

Lemma val_inj {A} (a b : A) : Val a = Val b -> a = b. Proof. intros H. now injection H. Qed.

Tactic Notation "cbs" hyp(H) "as" simple_intropattern(x) ident(E) := match type of H with
  | cbind ?m _ = Val _ => destruct m as [x| |] eqn:E; try discriminate H; cbn [cbind] in H
  end.

Section Grow.
  Variables (o : copts) (c : ctrl).
  Lemma next_line_grows s l s' : next_line o c s = Val (l, s') -> grows s s' /\ k_lines s = l :: k_lines s' /\
    s' = with_notes [Numbers [l]] (with_lines (k_lines s') s).
  Proof.
    unfold next_line. intros H. cb H. destruct a as [x r]. injection H as <- <-. apply read_line_taken in E. split; [apply (grows_notes (with_lines r s))|]. split; [exact E|reflexivity].
  Qed.
  Lemma run_plan_grows e v p s s' : run_plan o e v p s = Val s' -> grows s s'.
  Proof.
    destruct p as [w|x ix|x ix]; cbn [run_plan]; intros H.
    - cb H. injection H as <-. apply grows_refl.
    - cb H. cb H. injection H as <-. apply (grows_notes (with_cur a0 s)).
    - cb H. destruct a.
      + cb H. cb H. injection H as <-. apply grows_refl.
      + cb H. injection H as <-. now apply grows_same.
  Qed.
  Lemma run_field_grows up lv t cur e line j s s' : run_field o up lv t cur e line j s = Val s' -> grows s s'.
  Proof.
    unfold run_field. destruct (plan_of up lv cur t e); [|discriminate]. intros H. cb H. eapply run_plan_grows; eauto.
  Qed.
  Lemma run_fields_grows up lv line fs : forall cur s s', run_fields o up lv cur line fs s = Val s' -> grows s s'.
  Proof.
    induction fs as [|[[j t] e] fs IH]; intros cur s s' H; cbn [run_fields] in H; [injection H as <-; apply grows_refl|].
    destruct (reg_field up lv t cur e); [|discriminate]. cb H. eapply grows_trans; [eapply run_field_grows; eauto|eauto].
  Qed.
  Lemma run_texts_grows line fs : forall first ofs s s', run_texts first ofs line fs s = Val s' -> grows s s'.
  Proof.
    induction fs as [|[u n] fs IH]; intros first ofs s s' H; cbn [run_texts] in H; [injection H as <-; apply grows_refl|].
    destruct (text_length first (u, n)) as [len|]; [|discriminate]. cb H. apply IH in H. eapply grows_trans; [|exact H].
    destruct u as [[x ix]|]; [|injection E as <-; apply grows_refl]. cb E. cb E. cb E. injection E as <-. apply (grows_notes (with_cur _ s)).
  Qed.
  Lemma run_text_grows fs s s' : run_text o c fs s = Val s' -> grows s s'.
  Proof.
    unfold run_text. intros H. cb H. destruct a as [line r]. cb H. injection H as <-. apply run_texts_grows in E0.
    eapply grows_trans; [|apply grows_notes]. eapply grows_trans; [|exact E0]. now apply grows_same.
  Qed.
  Lemma run_columns_grows up cols : forall cur s s', run_columns up cur cols s = Val s' -> grows s s'.
  Proof.
    induction cols as [|[x v] cols IH]; intros cur s s' H; cbn [run_columns] in H; [injection H as <-; apply grows_refl|].
    cb H. apply IH in H. eapply grows_trans; [|exact H]. destruct (vget _ _); [destruct (resolve _ _); [discriminate|]|]; injection E as <-.
    - apply (grows_notes (with_cur _ s)).
    - now apply grows_same.
  Qed.
  Lemma in_frame_grows u body s s' : (forall a b, body a = Val b -> grows a b) -> in_frame u body s = Val s' -> grows s s'.
  Proof.
    intros B H. unfold in_frame in H. destruct u as [x q]. cb H. cb H. destruct a0 as [found f]. destruct found; try discriminate.
    cb H. apply B in E1. destruct (k_up a0) as [|f1 up]; [discriminate|]. destruct (put_path _ _ _); try discriminate. injection H as <-.
    eapply grows_trans; [|apply (grows_trans _ a0); [exact E1|now apply grows_same]].
    apply (grows_notes (with_frames _ _ s)).
  Qed.
  Lemma in_named_grows name body s s' : (forall a b, body a = Val b -> grows a b) -> in_named name body s = Val s' -> grows s s'.
  Proof. destruct name; cbn [in_named]; [apply in_frame_grows|auto]. Qed.

  Lemma turns_grows {A} (st : A -> cstate) v stop setl getl body b : (forall l a, k_notes (st (setl l a)) = k_notes (st a)) ->
    (forall a a', body a = Val a' -> grows (st a) (st a')) ->
    forall is_ a a', turns v stop setl getl body b is_ a = Val a' -> grows (st a) (st a').
  Proof.
    intros S B. induction is_ as [|i r IH]; intros a a' H; cbn [turns] in H; cb H; destruct (_ =? b); try discriminate.
    - injection H as <-. apply grows_refl.
    - cb H. apply B in E0. apply IH in H. eapply grows_trans; [|eapply grows_trans; [exact E0|eapply grows_trans; [|exact H]]]; now apply grows_same.
  Qed.
  Lemma for_grows {A} (st : A -> cstate) v start stop setl getl body : (forall l a, k_notes (st (setl l a)) = k_notes (st a)) ->
    (forall a a', body a = Val a' -> grows (st a) (st a')) ->
    forall a a', for_loop v start stop setl getl body a = Val a' -> grows (st a) (st a').
  Proof.
    intros S B a a' H. unfold for_loop in H. destruct start; try discriminate. destruct v0; try discriminate. cb H. cb H.
    eapply turns_grows; eauto.
  Qed.

  Lemma clist_grows npl :
    (forall i up lv cur l l', clist_item o c npl up lv cur i l = Val l' -> grows (lr_st l) (lr_st l')) /\
    (forall b up lv cur l l', clist_body o c npl up lv cur b l = Val l' -> grows (lr_st l) (lr_st l')).
  Proof.
    apply lrecipe_mut; cbn [clist_item clist_body]; try discriminate.
    - intros e up lv cur l l' H. unfold clist_expr in H. cb H. apply run_field_grows in E. destruct (_ && _).
      + cb H. destruct a0 as [line s2]. injection H as <-. apply next_line_grows in E0 as (G & _). cbn [lr_st]. eapply grows_trans; eauto.
      + injection H as <-. exact E.
    - intros v a b body IH up lv cur l l' H. eapply (for_grows lr_st) in H; [exact H|reflexivity|eauto].
    - intros up lv cur l l' H. injection H as <-. apply grows_refl.
    - intros i IHi r IHr up lv cur l l' H. cb H. destruct (reg_litem up lv cur i); [|discriminate]. eapply grows_trans; eauto.
  Qed.
  Lemma run_list_grows npl up lv cur body s s' : run_list o c npl up lv cur body s = Val s' -> grows s s'.
  Proof.
    unfold run_list. intros H. cb H. destruct a as [line s1]. apply next_line_grows in E as (G & _). cb H.
    apply (proj2 (clist_grows npl)) in E. destruct (_ =? npl); [|discriminate]. injection H as <-. eapply grows_trans; eauto.
  Qed.

  Lemma crun_grows :
    (forall i up lv cur s s', crun o c up lv cur i s = Val s' -> grows s s') /\
    (forall b up lv cur s s', crun_block o c up lv cur b s = Val s' -> grows s s') /\
    (forall b up lv cur s s', crun_branch o c up lv cur b s = Val s' -> grows s s') /\
    (forall r up lv cur els s s', (forall a b, els a = Val b -> grows a b) -> crun_branches o c up lv cur r els s = Val s' -> grows s s').
  Proof.
    apply recipe_mut; cbn [crun crun_block crun_branch crun_branches]; try discriminate.
    - intros head cs f up lv cur s s' H. unfold run_cont in H. cb H. destruct a as [line s1]. apply next_line_grows in E as (G & _).
      eapply grows_trans; [exact G|]. eapply run_fields_grows; eauto.
    - intros cs f up lv cur s s' H. eapply run_text_grows; eauto.
    - intros cs l1 l2 n1 n2 up lv cur s s' H. unfold run_dir in H. cb H. destruct a as [line s1]. apply next_line_grows in E as (G & _).
      eapply grows_trans; [exact G|]. eapply run_fields_grows; eauto.
    - intros cs f x y name up lv cur s s' H. unfold run_tab1 in H. cb H. destruct a as [line s1]. apply next_line_grows in E as (G & _).
      cb H. apply run_fields_grows in E. destruct (vars_in _ _ _) as [up' cur']. eapply grows_trans; [exact G|]. eapply grows_trans; [exact E|]. revert H. apply in_named_grows.
      intros p q H. cb H. cb H. cb H. destruct a2 as [[t u] r]. eapply grows_trans; [|eapply run_columns_grows; exact H].
      apply (grows_notes (with_lines r p)).
    - intros cs f name up lv cur s s' H. unfold run_tab2 in H. cb H. destruct a as [line s1]. apply next_line_grows in E as (G & _).
      cb H. apply run_fields_grows in E. destruct (vars_in _ _ _) as [up' cur']. eapply grows_trans; [exact G|]. eapply grows_trans; [exact E|]. revert H. apply in_named_grows.
      intros p q H. cb H. cb H. destruct a1 as [t r]. eapply grows_trans; [|eapply run_columns_grows; exact H].
      apply (grows_notes (with_lines r p)).
    - intros cs f body name up lv cur s s' H. unfold run_listrec in H. cb H. destruct a as [line s1]. apply next_line_grows in E as (G & _).
      cb H. apply run_fields_grows in E. destruct (vars_in _ _ _) as [up' cur']. eapply grows_trans; [exact G|]. eapply grows_trans; [exact E|].
      revert H. apply in_named_grows. intros p q H. cb H. eapply grows_trans; [apply (grows_notes p)|]. eapply run_list_grows; eauto.
    - intros up lv cur s s' H. cb H. injection H as <-. now apply grows_same.
    - intros up lv cur s s' H. injection H as <-. apply grows_refl.
    - intros [x ix] tail body IH up lv cur s s' H. destruct (vars_in _ _ _) as [up' cur']. revert H. apply in_frame_grows. eauto.
    - intros v a b body IH up lv cur s s' H. eapply (for_grows (fun s => s)) in H; [exact H|reflexivity|eauto].
    - intros first IH1 more IH2 els IH3 up lv cur s s' H. cb H. destruct a; [eauto|]. eapply IH2; [|exact H]. eauto.
    - intros up lv cur s s' H. injection H as <-. apply grows_refl.
    - intros i IHi r IHr up lv cur s s' H. cb H. destruct (reg_instr up lv cur i); [|discriminate]. eapply grows_trans; eauto.
    - intros q la body IH up lv cur s s' H. eauto.
    - intros up lv cur els s s' EL H. eauto.
    - intros b IHb r IHr up lv cur els s s' EL H. cb H. destruct a; eauto.
  Qed.
End Grow.
