(** The equation solver: evaluation is preserved. *)
From Coq Require Import Ascii String ZArith QArith Qcanon Bool Lia List Ring Field Permutation.
From Coq Require Import Floats.SpecFloat.
From Verif Require Import PyBase ModelFortran ModelRecipe ModelInterp SpecInterp ProofPyBase ProofInterpMap ModelSolve SpecSolve.
Import ListNotations.
Open Scope Z_scope.

Lemma tree_ind' (P : tree -> Prop) :
  (forall v, P (TNum v)) -> (forall x ix, P (TVar x ix)) -> (forall o ch, Forall P ch -> P (TTree o ch)) -> forall t, P t.
Proof.
  intros H1 H2 H3. fix IH 1. intros [v|x ix|o ch]; [apply H1|apply H2|]. apply H3. induction ch as [|c r IHr]; constructor; [apply IH|exact IHr].
Qed.
Lemma op_eqb_eq a b : op_eqb a b = true -> a = b.
Proof. destruct a, b; try discriminate; reflexivity. Qed.
Lemma rbind_inv {A B} (m : res A) (f : A -> res B) b : rbind m f = Got b -> exists a, m = Got a /\ f a = Got b.
Proof. destruct m; [eauto|discriminate]. Qed.
Lemma map_res_inv {A B} (f : A -> res B) l m : map_res f l = Got m -> Forall2 (fun a b => f a = Got b) l m.
Proof.
  revert m. induction l as [|a r IH]; intros m H; cbn in H.
  - injection H as <-. constructor.
  - apply rbind_inv in H as (b & Hb & H). apply rbind_inv in H as (s & Hs & H). injection H as <-. constructor; auto.
Qed.
Lemma sf_same_eq a b : sf_same a b = true -> a = b.
Proof.
  destruct a as [s|s| |s m e], b as [t|t| |t n f]; cbn; try discriminate; intros H; try reflexivity.
  - apply Bool.eqb_prop in H. now subst.
  - apply Bool.eqb_prop in H. now subst.
  - apply andb_prop in H as [H H3]. apply andb_prop in H as [H1 H2]. apply Bool.eqb_prop in H1. apply Pos.eqb_eq in H2. apply Z.eqb_eq in H3. now subst.
Qed.
Lemma lit_eqb_eq a b : lit_eqb a b = true -> a = b.
Proof. destruct a, b; cbn; try discriminate; intros H; [apply Z.eqb_eq in H|apply sf_same_eq in H]; now subst. Qed.

(** ** Walking *)
Lemma walk_inv (P : tree -> tree -> Prop) f :
  (forall t, P t (f t)) -> (forall a b c, P a b -> P b c -> P a c) ->
  (forall o l m, Forall2 P l m -> P (TTree o l) (TTree o m)) -> forall t, P t (walk f t).
Proof.
  intros Hf Ht Hc. induction t as [v|x ix|o ch IH] using tree_ind'; cbn [walk]; [apply Hf|apply Hf|].
  apply (Ht _ (TTree o (map (walk f) ch))); [|apply Hf]. apply Hc. induction IH; cbn; constructor; auto.
Qed.
Lemma transform_inv (P : tree -> tree -> Prop) f :
  (forall t u, f t = Got u -> P t u) -> (forall a b c, P a b -> P b c -> P a c) ->
  (forall o l m, Forall2 P l m -> P (TTree o l) (TTree o m)) -> forall t u, transform f t = Got u -> P t u.
Proof.
  intros Hf Ht Hc. induction t as [v|x ix|o ch IH] using tree_ind'; intros u H; cbn [transform] in H; [apply Hf; exact H|apply Hf; exact H|].
  apply rbind_inv in H as (m & Hm & H). apply map_res_inv in Hm.
  apply (Ht _ (TTree o m)); [|apply Hf; exact H]. apply Hc. clear -IH Hm. revert IH. induction Hm; intros IH; constructor.
  - inversion IH; subst. auto.
  - inversion IH; subst. auto.
Qed.

(** ** Names and operations *)
Section Wf.
  Variable pv : str -> list idx -> Prop.
  Variable po : op -> Prop.
  Hypothesis po_add : po Addition.
  Hypothesis po_mul : po Multiplication.
  Hypothesis po_neg : po Minusexpr.
  Inductive wf : tree -> Prop :=
  | wf_num z : wf (TNum z)
  | wf_var x ix : pv x ix -> wf (TVar x ix)
  | wf_tree o ch : po o -> Forall wf ch -> wf (TTree o ch).
  Ltac ww := repeat match goal with H : Forall wf (_ :: _) |- _ => inversion H; subst; clear H end.
  Definition keeps (t u : tree) : Prop := wf t -> wf u.

  Lemma keeps_trans a b c : keeps a b -> keeps b c -> keeps a c.
  Proof. unfold keeps. auto. Qed.
  Lemma keeps_tree o l m : Forall2 keeps l m -> keeps (TTree o l) (TTree o m).
  Proof. intros H W. inversion W; subst. constructor; [assumption|]. clear W H2. induction H; constructor; inversion H3; subst; auto. Qed.
  Lemma wf_ch o ch : wf (TTree o ch) -> Forall wf ch.
  Proof. intros H. now inversion H. Qed.
  Lemma wf_walk f : (forall t, keeps t (f t)) -> forall t, keeps t (walk f t).
  Proof. intros H. apply walk_inv; [exact H|apply keeps_trans|apply keeps_tree]. Qed.
  Lemma wf_transform f : (forall t u, f t = Got u -> keeps t u) -> forall t u, transform f t = Got u -> keeps t u.
  Proof. intros H. apply transform_inv; [exact H|apply keeps_trans|apply keeps_tree]. Qed.

  Lemma wf_sub t : keeps t (eliminate_subtraction t).
  Proof.
    destruct t as [|?|[] [|a [|b r]]]; intros W; try exact W. inversion W; subst. ww.
    repeat constructor; auto.
  Qed.
  Lemma wf_neg t : keeps t (eliminate_minusexpr t).
  Proof. destruct t as [|?|[] [|a r]]; intros W; try exact W. inversion W; subst. ww. repeat constructor; auto. Qed.
  Lemma wf_div t : keeps t (factorout_division t).
  Proof.
    destruct t as [|?|[] [|a [|b r]]]; intros W; try exact W. inversion W; subst. ww.
    repeat constructor; auto.
  Qed.
  Lemma wf_flat o ch : Forall wf ch -> Forall wf (flat_children o ch).
  Proof.
    intros H. induction H as [|c r Hc Hr IH]; [constructor|]. unfold flat_children. cbn [flat_map]. apply Forall_app. split; [|exact IH].
    destruct c as [v|x ix|p ds]; [constructor; [exact Hc|constructor]|constructor; [exact Hc|constructor]|]. destruct (op_eqb o p); [now apply wf_ch in Hc|]. constructor; auto.
  Qed.
  Lemma wf_flatten o t : keeps t (flatten o t).
  Proof.
    destruct t as [| |p ch]; intros W; try exact W. cbn [flatten]. destruct (op_eqb o p) eqn:E; [|exact W].
    apply op_eqb_eq in E as ->. inversion W; subst. constructor; [assumption|now apply wf_flat].
  Qed.
  Lemma wf_non_ints ch : Forall wf ch -> Forall wf (non_ints ch).
  Proof. intros H. unfold non_ints. rewrite Forall_forall in *. intros x Hx. apply filter_In in Hx as [Hx _]. auto. Qed.
  Lemma wf_one o l : po o -> Forall wf l -> wf match l with [t] => t | _ => TTree o l end.
  Proof. intros Ho H. destruct l as [|a [|b r]]; [now constructor|now inversion H|now constructor]. Qed.
  Lemma wf_ints t : keeps t (evaluate_int_ops t).
  Proof.
    destruct t as [| |[] ch]; intros W; try exact W; apply wf_ch, wf_non_ints in W; cbn [evaluate_int_ops].
    - unfold evaluate_int_addition. apply wf_one; [exact po_add|]. destruct (_ =? _); [exact W|]. apply Forall_app. split; [exact W|repeat constructor].
    - unfold evaluate_int_multiplication. apply wf_one; [exact po_mul|]. destruct (_ || _); [|exact W]. apply Forall_app. split; [exact W|repeat constructor].
  Qed.
  Lemma wf_mul2 a b : wf a -> wf b -> wf (TTree Multiplication [a; b]).
  Proof. repeat constructor; auto. Qed.
  Lemma wf_two a b : wf a -> wf b -> wf (expand_two a b).
  Proof.
    intros Wa Wb.
    assert (E : forall c l, wf c -> Forall wf l -> wf (TTree Addition (map (fun t => TTree Multiplication [c; t]) l))).
    { intros c l Wc Wl. constructor; [exact po_add|]. rewrite Forall_map. eapply Forall_impl; [|exact Wl]. intros t Wt. now apply wf_mul2. }
    assert (F : wf (TTree Multiplication [a; b])) by now apply wf_mul2.
    destruct a as [| |oa la], b as [| |ob lb]; cbn [expand_two]; try exact F.
    - destruct ob; try exact F. apply E; [exact Wa|now apply wf_ch in Wb].
    - destruct ob; try exact F. apply E; [exact Wa|now apply wf_ch in Wb].
    - destruct oa; try exact F. apply E; [exact Wb|now apply wf_ch in Wa].
    - destruct oa; try exact F. apply E; [exact Wb|now apply wf_ch in Wa].
    - destruct oa, ob; try exact F; try (apply E; [assumption|apply wf_ch with (1 := Wa) || apply wf_ch with (1 := Wb)]).
      constructor; [exact po_add|]. apply wf_ch in Wa, Wb. apply Forall_flat_map. eapply Forall_impl; [|exact Wa]. intros t Wt.
      rewrite Forall_map. eapply Forall_impl; [|exact Wb]. intros u Wu. now apply wf_mul2.
  Qed.
  Lemma wf_expand t u : expand_product t = Got u -> keeps t u.
  Proof.
    destruct t as [| |[] [|c r]]; cbn; intros H; try (injection H as <-; intros W; exact W); try discriminate H. injection H as <-. intros W.
    apply wf_walk; [apply wf_flatten|]. apply wf_ch in W. inversion W; subst. revert c H1 W. induction r as [|d r IH]; intros c Wc _; [exact Wc|].
    inversion H2; subst. cbn [fold_left]. apply IH; [assumption|now apply wf_two|]. constructor; [now apply wf_two|assumption].
  Qed.
  Lemma wf_normalize t u : normalize t = Got u -> keeps t u.
  Proof.
    unfold normalize. cbv zeta. intros H W. apply rbind_inv in H as (s & Hs & H). injection H as <-.
    apply wf_walk; [apply wf_flatten|]. refine (wf_transform _ wf_expand _ _ Hs _).
    do 2 (apply wf_walk; [apply wf_flatten|]). apply wf_walk; [apply wf_div|]. apply wf_walk; [apply wf_neg|]. apply wf_walk; [apply wf_sub|]. exact W.
  Qed.

  Variable strict : bool.
  Lemma wf_remove_first f l m : remove_first f l = Some m -> Forall wf l -> Forall wf m.
  Proof.
    revert m. induction l as [|c r IH]; intros m H W; cbn in H; [discriminate|]. inversion W; subst. destruct (teqb c f); [now injection H as <-|].
    destruct (remove_first f r) as [r'|]; [|discriminate]. injection H as <-. constructor; auto.
  Qed.
  Lemma wf_remove t f u : remove_factor strict t f = Got u -> wf t -> wf f -> wf u.
  Proof.
    intros H W Wf. assert (X : forall b : bool, (if b then Got (tint 1) else Raised EType) = Got u -> wf u).
    { intros [] E; [|discriminate]. injection E as <-. constructor. }
    destruct t as [| |[] ch]; try (apply (X _ H)). cbn [remove_factor] in H. destruct (remove_first f ch) as [[|a l]|] eqn:E; [| |discriminate].
    - destruct (strict && _); [discriminate|]. injection H as <-. repeat constructor; auto.
    - injection H as <-. constructor; [exact po_mul|]. eapply wf_remove_first; [exact E|now apply wf_ch in W].
  Qed.
  Lemma wf_extract t f u : extract_factor strict t f = Got u -> wf t -> wf f -> wf u.
  Proof.
    unfold extract_factor. intros H W Wf. apply rbind_inv in H as (terms & Ht & H). apply rbind_inv in H as (new & Hn & H). injection H as <-.
    assert (Wt : Forall wf terms). { destruct t as [| |[] ch]; try discriminate; injection Ht as <-; [now apply wf_ch in W|now constructor]. }
    apply wf_mul2; [exact Wf|]. apply wf_one; [exact po_add|]. apply map_res_inv in Hn. clear Ht. induction Hn; constructor; inversion Wt; subst; auto.
    eapply wf_remove; eauto.
  Qed.
  Lemma wf_distinct seen l : Forall wf l -> Forall wf (distinct seen l).
  Proof.
    revert seen. induction l as [|c r IH]; intros seen W; cbn; [constructor|]. inversion W; subst. destruct (kmem c seen); [auto|]. constructor; auto.
  Qed.
  Lemma wf_factors t : wf t -> Forall wf (factors t).
  Proof. intros W. destruct t as [| |[] ch]; cbn; try (now constructor). now apply wf_ch in W. Qed.
  Lemma wf_count f c : wf f -> Forall (fun q => wf (fst q)) c -> Forall (fun q => wf (fst q)) (count_in f c).
  Proof.
    intros Wf H. induction H as [|[g n] r Hg Hr IH]; cbn; [repeat constructor; auto|]. destruct (keyeqb f g); constructor; auto.
  Qed.
  Lemma wf_counts l : Forall wf l -> Forall (fun q => wf (fst q)) (factor_counts l).
  Proof.
    intros W. unfold factor_counts. assert (X : Forall wf (concat (term_factors l))).
    { unfold term_factors. apply Forall_concat. rewrite Forall_map. apply (wf_distinct []) in W. eapply Forall_impl; [|exact W].
      intros t Wt. now apply wf_distinct, wf_factors. }
    revert X. generalize (concat (term_factors l)) as m. clear W. intros m. assert (Y : Forall (fun q : tree * nat => wf (fst q)) []) by constructor. revert Y.
    generalize (@nil (tree * nat)). induction m as [|f m IH]; intros c Y X; cbn [fold_left]; [exact Y|]. inversion X; subst. apply IH; [now apply wf_count|assumption].
  Qed.
  Lemma wf_common l f : most_common l = Got f -> Forall wf l -> wf f.
  Proof.
    unfold most_common. cbv zeta. intros H W. apply wf_counts in W. rewrite Forall_forall in W.
    destruct (filter _ (factor_counts l)) as [|q r] eqn:E; [discriminate|]. injection H as <-. apply W.
    assert (X : In q (q :: r)) by now left. rewrite <- E in X. now apply filter_In in X as [X _].
  Qed.
  Lemma wf_filter g l : Forall wf l -> Forall wf (filter g l).
  Proof. rewrite !Forall_forall. intros H x Hx. apply filter_In in Hx as [Hx _]. auto. Qed.
  Lemma wf_factorout n t u : factorout_common strict n t = Got u -> keeps t u.
  Proof.
    revert t u. induction n as [|n IH]; intros t u H W; [discriminate|]. cbn [factorout_common] in H.
    destruct t as [| |[] ch]; try (injection H as <-; exact W). pose proof (wf_ch _ _ W) as Wc.
    destruct ch as [|a [|b r]]; [discriminate H| injection H as <-; now inversion Wc|]. revert H Wc. set (ch := a :: b :: r). intros H Wc.
    apply rbind_inv in H as (f & Hf & H). cbv zeta in H. pose proof (wf_common _ _ Hf Wc) as Wf.
    destruct (Nat.leb _ 1); [injection H as <-; exact W|].
    apply rbind_inv in H as (x & Hx & H). apply rbind_inv in H as (y & Hy & H).
    assert (Wx : wf x). { eapply wf_extract; [exact Hx| |exact Wf]. constructor; [exact po_add|now apply wf_filter]. }
    assert (Wy : wf y). { refine (wf_transform _ _ _ _ Hy Wx). exact IH. }
    pose proof (wf_filter (fun c => negb (has_factor f c)) _ Wc) as W2.
    destruct (filter (fun c => negb (has_factor f c)) ch) as [|c [|d s]].
    - injection H as <-. exact Wy.
    - injection H as <-. inversion W2; subst. repeat constructor; auto.
    - apply rbind_inv in H as (z & Hz & H). injection H as <-. apply IH in Hz. repeat constructor; auto. apply Hz. now constructor.
  Qed.
  Lemma wf_simplify n t u : simplify strict n t = Got u -> keeps t u.
  Proof.
    unfold simplify. cbv zeta. intros H W. apply rbind_inv in H as (s & Hs & H). injection H as <-.
    apply wf_walk; [apply wf_ints|]. do 2 (apply wf_walk; [apply wf_flatten|]). refine (wf_transform _ _ _ _ Hs W). apply wf_factorout.
  Qed.
  Lemma wf_constants l r v l' r' : po Subtraction -> move_constants l r v = (l', r') -> wf l -> wf r -> wf l' /\ wf r'.
  Proof.
    intros Ps H Wl Wr. destruct l as [| |[] ch]; try (injection H as <- <-; now split). cbn [move_constants] in H. injection H as <- <-.
    apply wf_ch in Wl. split.
    - pose proof (wf_filter (contains v) _ Wl) as X. destruct (filter (contains v) ch) as [|a [|b s]]; [constructor|now inversion X|now constructor].
    - do 2 (apply wf_walk; [apply wf_flatten|]). apply wf_walk; [apply wf_neg|]. apply wf_walk; [apply wf_sub|].
      pose proof (wf_filter (fun c => negb (contains v c)) _ Wl) as X. revert r Wr. induction X as [|c s Hc Hs IH]; intros r Wr; [exact Wr|].
      cbn [fold_left]. apply IH. constructor; [exact Ps|]. repeat constructor; auto.
  Qed.
End Wf.

(** ** Values *)
Section Values.
  Local Arguments a_zero : simpl never.
  Local Arguments a_one : simpl never.
  Variable A : arith.
  Notation "a +' b" := (a_add A a b) (at level 50, left associativity).
  Notation "a *' b" := (a_mul A a b) (at level 40, left associativity).
  Hypothesis laws : ring_theory (a_zero A) (a_one A) (a_add A) (a_mul A) (a_sub A) (a_neg A) eq.
  Add Ring A_ring : laws.
  Hypothesis div_law : forall a b, a_div A a b = a *' a_div A (a_one A) b.
  Hypothesis lit_add : forall a b, a_lit A (NInt (a + b)) = a_lit A (NInt a) +' a_lit A (NInt b).
  Hypothesis lit_mul : forall a b, a_lit A (NInt (a * b)) = a_lit A (NInt a) *' a_lit A (NInt b).

  Definition sum (l : list A) : A := fold_right (a_add A) (a_zero A) l.
  Definition prod (l : list A) : A := fold_right (a_mul A) (a_one A) l.
  Lemma sum_app l m : sum (l ++ m) = sum l +' sum m.
  Proof. induction l as [|a r IH]; cbn; [unfold sum; ring|]. fold (sum (r ++ m)). rewrite IH. fold (sum r). ring. Qed.
  Lemma prod_app l m : prod (l ++ m) = prod l *' prod m.
  Proof. induction l as [|a r IH]; cbn; [unfold prod; ring|]. fold (prod (r ++ m)). rewrite IH. fold (prod r). ring. Qed.
  Lemma lit_minus1 : a_lit A (NInt (-1)) = a_neg A (a_one A).
  Proof.
    assert (H : a_lit A (NInt (-1)) +' a_one A = a_zero A) by (unfold a_one, a_zero; rewrite <- lit_add; reflexivity).
    transitivity ((a_lit A (NInt (-1)) +' a_one A) +' a_neg A (a_one A)); [ring|]. rewrite H. ring.
  Qed.

  Section Rho.
  Variable rho : str -> list idx -> A.
  (** the values depend on the names only *)
  Hypothesis named : forall x ix jx, rho x ix = rho x jx.
  Notation ev := (teval A rho).
  Definition same (t u : tree) : Prop := ev u = ev t.

  Lemma same_trans a b c : same a b -> same b c -> same a c.
  Proof. unfold same. congruence. Qed.
  Lemma same_list l m : Forall2 same l m -> map ev m = map ev l.
  Proof. induction 1; cbn; congruence. Qed.
  Lemma same_tree o l m : Forall2 same l m -> same (TTree o l) (TTree o m).
  Proof.
    intros H. pose proof (same_list _ _ H) as E. unfold same. destruct o; cbn [teval]; try (now rewrite E).
    all: inversion H as [|a a' r r' Ha Hr]; subst; [reflexivity|]; unfold same in Ha; try (now rewrite Ha).
    all: inversion Hr as [|b b' s s' Hb Hs]; subst; [reflexivity|]; unfold same in Hb; now rewrite Ha, Hb.
  Qed.
  Lemma ev_walk f : (forall t, same t (f t)) -> forall t, same t (walk f t).
  Proof. intros H. apply walk_inv; [exact H|apply same_trans|apply same_tree]. Qed.
  Lemma ev_transform f : (forall t u, f t = Got u -> same t u) -> forall t u, transform f t = Got u -> same t u.
  Proof. intros H. apply transform_inv; [exact H|apply same_trans|apply same_tree]. Qed.

  Lemma ev_sum ch : ev (TTree Addition ch) = sum (map ev ch).
  Proof. reflexivity. Qed.
  Lemma ev_prod ch : ev (TTree Multiplication ch) = prod (map ev ch).
  Proof. reflexivity. Qed.
  Lemma ev_mul2 a b : ev (TTree Multiplication [a; b]) = ev a *' ev b.
  Proof. cbn. ring. Qed.

  Lemma teqb_ev a b : teqb a b = true -> ev a = ev b.
  Proof.
    revert b. induction a as [v|x ix|o ch IH] using tree_ind'; intros b H; destruct b as [w|y jx|p dh]; try discriminate H; cbn [teqb] in H.
    - apply lit_eqb_eq in H. now subst.
    - apply str_eqb_eq in H. subst. cbn. apply named.
    - apply andb_prop in H as [Ho H]. apply op_eqb_eq in Ho as <-.
      assert (X : Forall2 same dh ch).
      { clear o. revert dh H. induction IH as [|c r Hc Hr IHr]; intros [|d s] H; try discriminate H; constructor.
        - apply andb_prop in H as [H _]. now apply Hc.
        - apply andb_prop in H as [_ H]. now apply IHr. }
      apply same_tree with (o := o) in X. exact X.
  Qed.

  Lemma ev_sub t : same t (eliminate_subtraction t).
  Proof. destruct t as [|?|[] [|a [|b r]]]; try reflexivity. unfold same. cbn. ring. Qed.
  Lemma ev_neg t : same t (eliminate_minusexpr t).
  Proof. destruct t as [|?|[] [|a r]]; try reflexivity. unfold same. cbn. rewrite lit_minus1. ring. Qed.
  Lemma ev_div t : same t (factorout_division t).
  Proof. destruct t as [|?|[] [|a [|b r]]]; try reflexivity. unfold same. cbn. rewrite (div_law (ev a)). change (a_lit A (NInt 1)) with (a_one A). ring. Qed.
  Lemma ev_flatten_add t : same t (flatten Addition t).
  Proof.
    destruct t as [| |p ch]; try reflexivity. cbn [flatten]. destruct (op_eqb Addition p) eqn:E; [|reflexivity]. apply op_eqb_eq in E as <-.
    unfold same. rewrite !ev_sum. induction ch as [|c r IH]; [reflexivity|]. unfold flat_children in *. cbn [flat_map map]. rewrite map_app, sum_app, IH.
    change (sum (ev c :: map ev r)) with (ev c +' sum (map ev r)). f_equal.
    assert (X : sum (map ev [c]) = ev c) by (cbn; ring). destruct c as [| |[] ds]; try exact X. reflexivity.
  Qed.
  Lemma ev_flatten_mul t : same t (flatten Multiplication t).
  Proof.
    destruct t as [| |p ch]; try reflexivity. cbn [flatten]. destruct (op_eqb Multiplication p) eqn:E; [|reflexivity]. apply op_eqb_eq in E as <-.
    unfold same. rewrite !ev_prod. induction ch as [|c r IH]; [reflexivity|]. unfold flat_children in *. cbn [flat_map map]. rewrite map_app, prod_app, IH.
    change (prod (ev c :: map ev r)) with (ev c *' prod (map ev r)). f_equal.
    assert (X : prod (map ev [c]) = ev c) by (cbn; ring). destruct c as [| |[] ds]; try exact X. reflexivity.
  Qed.

  Lemma lits_sum l z : a_lit A (NInt (fold_left Z.add l z)) = a_lit A (NInt z) +' sum (map (fun k => a_lit A (NInt k)) l).
  Proof. revert z. induction l as [|a r IH]; intros z; cbn [fold_left map]; [cbn; ring|]. rewrite IH, lit_add. cbn [sum fold_right]. unfold sum. ring. Qed.
  Lemma lits_prod l z : a_lit A (NInt (fold_left Z.mul l z)) = a_lit A (NInt z) *' prod (map (fun k => a_lit A (NInt k)) l).
  Proof. revert z. induction l as [|a r IH]; intros z; cbn [fold_left map]; [cbn; ring|]. rewrite IH, lit_mul. cbn [prod fold_right]. unfold prod. ring. Qed.
  Lemma split_sum ch : sum (map ev (non_ints ch)) +' sum (map (fun k => a_lit A (NInt k)) (int_lits ch)) = sum (map ev ch).
  Proof.
    induction ch as [|c r IH]; [cbn; ring|]. cbn [map]. change (sum (ev c :: map ev r)) with (ev c +' sum (map ev r)). rewrite <- IH.
    unfold non_ints, int_lits. cbn [filter flat_map]. destruct (int_lit c) as [z|] eqn:E.
    - destruct c as [[w|w|w o]| |]; try discriminate E. injection E as <-. cbn [app map teval]. unfold sum. cbn [fold_right]. ring.
    - cbn [app map]. unfold sum. cbn [fold_right]. ring.
  Qed.
  Lemma split_prod ch : prod (map ev (non_ints ch)) *' prod (map (fun k => a_lit A (NInt k)) (int_lits ch)) = prod (map ev ch).
  Proof.
    induction ch as [|c r IH]; [cbn; ring|]. cbn [map]. change (prod (ev c :: map ev r)) with (ev c *' prod (map ev r)). rewrite <- IH.
    unfold non_ints, int_lits. cbn [filter flat_map]. destruct (int_lit c) as [z|] eqn:E.
    - destruct c as [[w|w|w o]| |]; try discriminate E. injection E as <-. cbn [app map teval]. unfold prod. cbn [fold_right]. ring.
    - cbn [app map]. unfold prod. cbn [fold_right]. ring.
  Qed.
  Lemma one_sum l : ev match l with [t] => t | _ => TTree Addition l end = sum (map ev l).
  Proof. destruct l as [|a [|b r]]; [reflexivity| |reflexivity]. cbn. ring. Qed.
  Lemma one_prod l : ev match l with [t] => t | _ => TTree Multiplication l end = prod (map ev l).
  Proof. destruct l as [|a [|b r]]; [reflexivity| |reflexivity]. cbn. ring. Qed.
  Lemma ev_ints t : same t (evaluate_int_ops t).
  Proof.
    destruct t as [| |[] ch]; try reflexivity; unfold same; cbn [evaluate_int_ops].
    - rewrite ev_sum. unfold evaluate_int_addition. cbv zeta. rewrite one_sum, <- (split_sum ch).
      pose proof (lits_sum (int_lits ch) 0) as E. destruct (fold_left Z.add (int_lits ch) 0 =? 0) eqn:Q.
      + apply Z.eqb_eq in Q. rewrite Q in E. fold (a_zero A) in E. set (S := sum (map _ (int_lits ch))) in *.
        assert (F : S = a_zero A) by (transitivity (a_zero A +' S); [ring|symmetry; exact E]). rewrite F. ring.
      + rewrite map_app, sum_app. f_equal. cbn. rewrite E. unfold a_zero. fold (a_zero A). ring.
    - rewrite ev_prod. unfold evaluate_int_multiplication. cbv zeta. rewrite one_prod, <- (split_prod ch).
      pose proof (lits_prod (int_lits ch) 1) as E. destruct (negb (fold_left Z.mul (int_lits ch) 1 =? 1) || _) eqn:Q.
      + rewrite map_app, prod_app. f_equal. cbn. rewrite E. unfold a_one. fold (a_one A). ring.
      + apply orb_false_elim in Q as [Q _]. apply negb_false_iff, Z.eqb_eq in Q. rewrite Q in E. fold (a_one A) in E. set (S := prod (map _ (int_lits ch))) in *.
        assert (F : S = a_one A) by (transitivity (a_one A *' S); [ring|symmetry; exact E]). rewrite F. ring.
  Qed.

  Lemma sum_scaled c l : sum (map ev (map (fun t => TTree Multiplication [c; t]) l)) = ev c *' sum (map ev l).
  Proof.
    induction l as [|a r IH]; [cbn; ring|]. cbn [map]. change (sum (?x :: ?m)) with (x +' sum m). rewrite IH, ev_mul2. ring.
  Qed.
  Lemma ev_two a b : ev (expand_two a b) = ev a *' ev b.
  Proof.
    assert (E : forall c l, ev (TTree Addition (map (fun t => TTree Multiplication [c; t]) l)) = ev c *' ev (TTree Addition l)).
    { intros c l. rewrite !ev_sum. apply sum_scaled. }
    assert (E' : forall c l, ev (TTree Addition (map (fun t => TTree Multiplication [c; t]) l)) = ev (TTree Addition l) *' ev c).
    { intros c l. rewrite E. ring. }
    pose proof (ev_mul2 a b) as F.
    destruct a as [| |[] la], b as [| |[] lb]; cbn [expand_two]; try exact F; try apply E; try apply E'.
    clear F. rewrite !ev_sum. induction la as [|t r IH]; [cbn; ring|]. cbn [flat_map map]. rewrite map_app, sum_app, sum_scaled, IH.
    change (sum (ev t :: map ev r)) with (ev t +' sum (map ev r)). ring.
  Qed.
  Lemma ev_expand t u : expand_product t = Got u -> same t u.
  Proof.
    destruct t as [| |[] [|c r]]; cbn [expand_product]; intros H; try (injection H as <-; reflexivity); try discriminate H. injection H as <-.
    unfold same. rewrite (ev_walk _ ev_flatten_mul). revert c. induction r as [|d r IH]; intros c; [cbn; ring|]. cbn [fold_left]. rewrite IH.
    rewrite !ev_prod. cbn [map]. change (prod (?x :: ?m)) with (x *' prod m). rewrite ev_two. change (prod (?x :: ?m)) with (x *' prod m). ring.
  Qed.
  Lemma ev_normalize t u : normalize t = Got u -> same t u.
  Proof.
    unfold normalize. cbv zeta. intros H. apply rbind_inv in H as (s & Hs & H). injection H as <-. unfold same.
    rewrite (ev_walk _ ev_flatten_add), (ev_transform _ ev_expand _ _ Hs), (ev_walk _ ev_flatten_add), (ev_walk _ ev_flatten_mul).
    rewrite (ev_walk _ ev_div), (ev_walk _ ev_neg), (ev_walk _ ev_sub). reflexivity.
  Qed.

  Lemma ev_remove_first f l m : remove_first f l = Some m -> prod (map ev l) = ev f *' prod (map ev m).
  Proof.
    revert m. induction l as [|c r IH]; intros m H; cbn [remove_first] in H; [discriminate|]. cbn [map]. change (prod (?x :: ?k)) with (x *' prod k).
    destruct (teqb c f) eqn:E.
    - injection H as <-. now rewrite (teqb_ev _ _ E).
    - destruct (remove_first f r) as [r'|]; [|discriminate]. injection H as <-. rewrite (IH _ eq_refl). cbn [map]. change (prod (?x :: ?k)) with (x *' prod k). ring.
  Qed.
  Lemma ev_remove t f u : remove_factor true t f = Got u -> ev t = ev f *' ev u.
  Proof.
    intros H. assert (X : (if teqb f t then Got (tint 1) else Raised EType) = Got u -> ev t = ev f *' ev u).
    { destruct (teqb f t) eqn:E; [|discriminate]. intros X. injection X as <-. rewrite (teqb_ev _ _ E). cbn. fold (a_one A). ring. }
    destruct t as [| |[] ch]; try (exact (X H)). cbn [remove_factor] in H. destruct (remove_first f ch) as [[|a l]|] eqn:E; [| |discriminate].
    - destruct (teqb f (tint 1)) eqn:T; [|discriminate]. injection H as <-. apply ev_remove_first in E. apply teqb_ev in T.
      rewrite ev_prod, E. cbn [map teval]. unfold prod. cbn [fold_right]. rewrite T. change (teval A rho (tint 1)) with (a_one A). ring.
    - injection H as <-. exact (ev_remove_first _ _ _ E).
  Qed.
  Lemma ev_extract t f u : extract_factor true t f = Got u -> same t u.
  Proof.
    unfold extract_factor. intros H. apply rbind_inv in H as (terms & Ht & H). apply rbind_inv in H as (new & Hn & H). injection H as <-.
    assert (E : ev t = sum (map ev terms)).
    { destruct t as [| |[] ch]; try discriminate; injection Ht as <-; [reflexivity|]. cbn [map]. change (sum (?x :: ?k)) with (x +' sum k). cbn [sum fold_right]. ring. }
    unfold same. rewrite ev_mul2, one_sum, E. apply map_res_inv in Hn. clear Ht E. induction Hn as [|a b l m Ha Hl IH]; [cbn; ring|].
    cbn [map]. change (sum (?x :: ?k)) with (x +' sum k). rewrite <- IH, (ev_remove _ _ _ Ha). ring.
  Qed.
  Lemma sum_partition g l : sum (map ev l) = sum (map ev (filter g l)) +' sum (map ev (filter (fun c => negb (g c)) l)).
  Proof.
    induction l as [|c r IH]; [cbn; ring|]. cbn [map filter]. change (sum (ev c :: map ev r)) with (ev c +' sum (map ev r)). rewrite IH.
    destruct (g c); cbn [negb map]; change (sum (?x :: ?k)) with (x +' sum k); ring.
  Qed.
  Lemma ev_factorout n t u : factorout_common true n t = Got u -> same t u.
  Proof.
    revert t u. induction n as [|n IH]; intros t u H; [discriminate|]. cbn [factorout_common] in H.
    destruct t as [| |[] ch]; try (injection H as <-; reflexivity). 
    destruct ch as [|a [|b r]]; [discriminate H|injection H as <-; unfold same; cbn; ring|]. revert H. set (ch := a :: b :: r). intros H.
    apply rbind_inv in H as (f & Hf & H). cbv zeta in H. destruct (Nat.leb _ 1); [injection H as <-; reflexivity|].
    apply rbind_inv in H as (x & Hx & H). apply rbind_inv in H as (y & Hy & H).
    apply ev_extract in Hx. apply (ev_transform _ IH) in Hy. unfold same in *. rewrite ev_sum in *. rewrite Hx in Hy. clear Hx Hf.
    rewrite (sum_partition (has_factor f) ch), <- Hy.
    destruct (filter (fun c => negb (has_factor f c)) ch) as [|c [|d s]].
    - injection H as <-. cbn. ring.
    - injection H as <-. rewrite ev_sum. cbn. ring.
    - apply rbind_inv in H as (z & Hz & H). injection H as <-. apply IH in Hz. unfold same in Hz. rewrite ev_sum in *. rewrite <- Hz. cbn. ring.
  Qed.
  Lemma ev_simplify n t u : simplify true n t = Got u -> same t u.
  Proof.
    unfold simplify. cbv zeta. intros H. apply rbind_inv in H as (s & Hs & H). injection H as <-. unfold same.
    rewrite (ev_walk _ ev_ints), (ev_walk _ ev_flatten_add), (ev_walk _ ev_flatten_mul). exact (ev_transform _ (ev_factorout n) _ _ Hs).
  Qed.
  Lemma ev_constants l r v l' r' : move_constants l r v = (l', r') -> a_sub A (ev l') (ev r') = a_sub A (ev l) (ev r).
  Proof.
    intros H. destruct l as [| |[] ch]; try (injection H as <- <-; reflexivity). cbn [move_constants] in H. injection H as <- <-.
    rewrite (ev_walk _ ev_flatten_add), (ev_walk _ ev_flatten_mul), (ev_walk _ ev_neg), (ev_walk _ ev_sub).
    assert (E : forall m r, ev (fold_left (fun r c => TTree Subtraction [r; c]) m r) = a_sub A (ev r) (sum (map ev m))).
    { induction m as [|c m IH]; intros r0; [cbn; ring|]. cbn [fold_left]. rewrite IH. cbn [teval map]; unfold sum; cbn [fold_right]. ring. }
    rewrite E, ev_sum, (sum_partition (contains v) ch).
    assert (F : ev match filter (contains v) ch with [] => tint 0 | [t] => t | _ :: _ :: _ => TTree Addition (filter (contains v) ch) end
                = sum (map ev (filter (contains v) ch))).
    { destruct (filter (contains v) ch) as [|a [|b s]]; [reflexivity| |reflexivity]. cbn. ring. }
    rewrite F. ring.
  Qed.
  End Rho.

  (** ** Independence of the unknown variable *)
  Lemma change_same x (y : A) (rho : str -> list idx -> A) ix : change x y rho x ix = y.
  Proof. unfold change. now rewrite str_eqb_refl. Qed.
  Lemma free_ev x ix (y : A) (rho : str -> list idx -> A) t : contains (TVar x ix) t = false -> teval A (change x y rho) t = teval A rho t.
  Proof.
    induction t as [v|z jx|o ch IH] using tree_ind'; intros H; cbn [contains] in H.
    - reflexivity.
    - cbn [teqb] in H. cbn. unfold change. now rewrite H.
    - assert (E : Forall2 (same rho) ch ch /\ map (teval A (change x y rho)) ch = map (teval A rho) ch /\
                  forall c, In c ch -> teval A (change x y rho) c = teval A rho c).
      { clear o. induction IH as [|c r Hc Hr IHr]; [repeat split; [constructor|intros c []]|]. cbn [existsb] in H. apply orb_false_elim in H as [H1 H2].
        destruct (IHr H2) as (I1 & I2 & I3). split; [constructor; [reflexivity|exact I1]|]. split; [cbn; now rewrite (Hc H1), I2|].
        intros d [<-|Hd]; auto. }
      destruct E as (_ & E & F). destruct o; cbn [teval]; try (now rewrite E).
      all: destruct ch as [|a [|b r]]; try reflexivity; try (rewrite (F a) by (now left)); try (rewrite (F b) by (right; now left)); reflexivity.
  Qed.
End Values.

(** ** The solution *)
Lemma contains_wf x ix (po : op -> Prop) t : (forall o, po o) -> contains (TVar x ix) t = false <-> wf (fun z _ => z <> x) po t.
Proof.
  intros P. induction t as [v|z jx|o ch IH] using tree_ind'; cbn [contains].
  - split; [constructor|reflexivity].
  - cbn [teqb]. split.
    + intros H. constructor. intros ->. now rewrite str_eqb_refl in H.
    + intros W. inversion W; subst. destruct (str_eqb z x) eqn:E; [|reflexivity]. now apply str_eqb_eq in E.
  - split.
    + intros H. constructor; [apply P|]. induction IH as [|c r Hc Hr IHr]; constructor; cbn [existsb] in H; apply orb_false_elim in H as [H1 H2]; [now apply Hc|auto].
    + intros W. apply wf_ch in W. induction IH as [|c r Hc Hr IHr]; [reflexivity|]. inversion W; subst. cbn [existsb]. rewrite (proj2 Hc) by assumption. auto.
Qed.
Lemma simplify_div strict n a b e : simplify strict n (TTree Division [a; b]) = Got e ->
  exists a' b', simplify strict n a = Got a' /\ simplify strict n b = Got b' /\ e = TTree Division [a'; b'].
Proof.
  unfold simplify. cbn [transform map_res]. intros H. apply rbind_inv in H as (s & Hs & H). apply rbind_inv in Hs as (m & Hm & Hs).
  apply rbind_inv in Hm as (a' & Ha & Hm). apply rbind_inv in Hm as (m' & Hm' & Hm). apply rbind_inv in Hm' as (b' & Hb & Hm').
  injection Hm' as <-. injection Hm as <-. destruct n as [|n]; [discriminate|]. cbn [factorout_common] in Hs. injection Hs as <-.
  cbv zeta in *. injection H as <-. rewrite Ha, Hb. cbn [rbind]. do 2 eexists. split; [reflexivity|]. split; reflexivity.
Qed.
Lemma simplify_var strict n x ix e : simplify strict n (TVar x ix) = Got e -> e = TVar x ix.
Proof. unfold simplify. destruct n; cbn; [discriminate|]. intros H. now injection H as <-. Qed.
Lemma others_wf x ix l r l' r' : wf (fun z _ => z <> x) (fun _ => True) r -> move_constants l r (TVar x ix) = (l', r') ->
  wf (fun z _ => z <> x) (fun _ => True) r'.
Proof.
  intros Wr H. destruct l as [| |[] ch]; try (injection H as <- <-; exact Wr). cbn [move_constants] in H. injection H as <- <-.
  do 2 (apply wf_walk; [intros t; apply wf_flatten; exact I|]). apply wf_walk; [intros t; apply wf_neg; exact I|]. apply wf_walk; [intros t; apply wf_sub; exact I|].
  assert (X : Forall (wf (fun z _ => z <> x) (fun _ => True)) (filter (fun c => negb (contains (TVar x ix) c)) ch)).
  { apply Forall_forall. intros c Hc. apply filter_In in Hc as [_ Hc]. apply negb_true_iff in Hc. now apply (contains_wf x ix (fun _ => True) c (fun _ => I)) in Hc. }
  revert r Wr. induction X as [|c s Hc Hs IH]; intros r Wr; [exact Wr|].
  cbn [fold_left]. apply IH. constructor; [exact I|]. repeat constructor; auto.
Qed.

Lemma solve_inv strict n lhs x ix l e : x <> $"cpp_val" -> solve_equation strict n lhs cpp_val (TVar x ix) = Got (l, e) ->
  exists L L1 R1, has_modulo lhs = false /\ normalize lhs = Got L /\ move_constants L cpp_val (TVar x ix) = (L1, R1) /\ contains (TVar x ix) R1 = false /\
  exists jx, l = TVar x jx /\
  ((L1 = l /\ simplify strict n R1 = Got e) \/
   (jx = ix /\ exists u R K, extract_factor strict L1 (TVar x ix) = Got (TTree Multiplication [TVar x ix; u]) /\ contains (TVar x ix) u = false /\
      simplify strict n R1 = Got R /\ simplify strict n (TTree Multiplication [u]) = Got K /\ e = TTree Division [R; K])).
Proof.
  intros Nx H. unfold solve_equation in H. cbn [has_modulo cpp_val] in H. rewrite orb_false_r in H. destruct (has_modulo lhs) eqn:Hm; [discriminate|].
  apply rbind_inv in H as (L & HL & H). apply rbind_inv in H as (R0 & HR0 & H).
  change (normalize cpp_val) with (Got cpp_val) in HR0. injection HR0 as <-. destruct (move_constants L cpp_val (TVar x ix)) as [L1 R1] eqn:HM.
  exists L, L1, R1. split; [reflexivity|]. split; [exact HL|]. split; [exact HM|].
  assert (C : contains (TVar x ix) R1 = false).
  { apply (contains_wf x ix (fun _ => True)); [auto|]. refine (others_wf _ _ _ _ _ _ _ HM). constructor. congruence. }
  split; [exact C|]. apply rbind_inv in H as (L2 & H2 & H). apply rbind_inv in H as ([L3 R3] & H3 & H).
  apply rbind_inv in H as (l' & Hl & H). apply rbind_inv in H as (e' & He & H). injection H as <- <-.
  destruct (teqb L1 (TVar x ix)) eqn:T.
  - injection H2 as <-. destruct L1 as [|y jx|]; try discriminate T. cbn [teqb] in T. pose proof T as T'. apply str_eqb_eq in T' as ->.
    cbn [move_factor teqb] in H3. rewrite T in H3. injection H3 as <- <-. apply simplify_var in Hl as ->. exists jx. split; [reflexivity|]. left. now split.
  - pose proof H2 as H2'. unfold extract_factor in H2'. apply rbind_inv in H2' as (terms & _ & H2'). apply rbind_inv in H2' as (new & _ & H2').
    injection H2' as <-. revert H2 H3. set (u := match new with [u] => u | _ => _ end). intros H2 H3. cbn [move_factor filter contains teqb] in H3.
    rewrite str_eqb_refl in H3. cbn [negb filter] in H3. destruct (contains (TVar x ix) u) eqn:Cu; [discriminate|]. cbn [negb] in H3.
    injection H3 as <- <-. apply simplify_var in Hl as ->. exists ix. split; [reflexivity|]. right. split; [reflexivity|]. apply simplify_div in He as (R & K & HR & HK & ->).
    exists u, R, K. repeat split; assumption.
Qed.

(** a solution without an additional quotient *)
Definition plain_solution (lhs e : tree) : Prop :=
  forall po : op -> Prop, po Addition -> po Multiplication -> po Minusexpr -> po Subtraction ->
  wf (fun _ _ => True) po lhs -> wf (fun _ _ => True) po e.
Section Solution.
  Local Arguments a_zero : simpl never.
  Local Arguments a_one : simpl never.
  Variable A : arith.
  Notation "a +' b" := (a_add A a b) (at level 50, left associativity).
  Notation "a *' b" := (a_mul A a b) (at level 40, left associativity).
  Hypothesis laws : ring_theory (a_zero A) (a_one A) (a_add A) (a_mul A) (a_sub A) (a_neg A) eq.
  Add Ring A_ring' : laws.
  Hypothesis div_law : forall a b, a_div A a b = a *' a_div A (a_one A) b.
  Hypothesis lit_add : forall a b, a_lit A (NInt (a + b)) = a_lit A (NInt a) +' a_lit A (NInt b).
  Hypothesis lit_mul : forall a b, a_lit A (NInt (a * b)) = a_lit A (NInt a) *' a_lit A (NInt b).

  (** the field is [c + k * x], and the solution is [r / k] with [r = value - c] *)
  Lemma solve_ev n lhs x ix l e : x <> $"cpp_val" -> solve_equation true n lhs cpp_val (TVar x ix) = Got (l, e) ->
    exists jx, l = TVar x jx /\ exists R K, contains (TVar x ix) R = false /\ contains (TVar x ix) K = false /\
    (forall rho, (forall z i j, rho z i = rho z j) ->
       teval A rho lhs +' teval A rho R = rho $"cpp_val" [] +' rho x ix *' teval A rho K) /\
    ((K = tint 1 /\ plain_solution lhs e /\ forall rho, (forall z i j, rho z i = rho z j) -> teval A rho e = teval A rho R) \/
     (exists R' K', e = TTree Division [R'; K'] /\
        forall rho, (forall z i j, rho z i = rho z j) -> teval A rho R' = teval A rho R /\ teval A rho K' = teval A rho K)).
  Proof.
    intros Nx H. destruct (solve_inv _ _ _ _ _ _ _ Nx H) as (L & L1 & R1 & Hm & HL & HM & CR & jx & -> & D). clear H. exists jx. split; [reflexivity|].
    destruct D as [[-> He]|(-> & u & R & K & Hx & Cu & HR & HK & ->)].
    - exists R1, (tint 1). split; [exact CR|]. split; [reflexivity|]. split.
      + intros rho N. pose proof (ev_normalize A laws div_law lit_add rho _ _ HL) as E1.
        pose proof (ev_constants A laws lit_add rho _ _ _ _ _ HM) as E2. unfold same in E1. rewrite E1 in E2. clear E1.
        change (teval A rho cpp_val) with (rho $"cpp_val" []) in E2. change (teval A rho (TVar x jx)) with (rho x jx) in E2. rewrite (N x ix jx). change (teval A rho (tint 1)) with (a_one A).
        transitivity (a_sub A (teval A rho lhs) (rho $"cpp_val" []) +' teval A rho R1 +' rho $"cpp_val" []); [ring|]. rewrite <- E2. ring.
      + left. split; [reflexivity|]. split.
        * intros po Pa Pm Pn Ps W. refine (wf_simplify _ po Pa Pm _ _ _ _ He _).
          eapply (wf_constants _ po Pa Pm Pn); [exact Ps|exact HM| |now constructor]. exact (wf_normalize _ po Pa Pm Pn _ _ HL W).
        * intros rho N. exact (ev_simplify A laws lit_add lit_mul rho N _ _ _ He).
    - exists R1, (TTree Multiplication [u]). split; [exact CR|]. split; [cbn; now rewrite Cu|]. split.
      + intros rho N. pose proof (ev_normalize A laws div_law lit_add rho _ _ HL) as E1.
        pose proof (ev_constants A laws lit_add rho _ _ _ _ _ HM) as E2. unfold same in E1. rewrite E1 in E2. clear E1.
        pose proof (ev_extract A laws rho N _ _ _ Hx) as E3. unfold same in E3. rewrite <- E3 in E2.
        change (teval A rho cpp_val) with (rho $"cpp_val" []) in E2. rewrite ev_mul2 in E2 by exact laws. change (teval A rho (TVar x ix)) with (rho x ix) in E2.
        replace (teval A rho (TTree Multiplication [u])) with (teval A rho u) by (cbn; ring).
        transitivity (a_sub A (teval A rho lhs) (rho $"cpp_val" []) +' teval A rho R1 +' rho $"cpp_val" []); [ring|]. rewrite <- E2. ring.
      + right. exists R, K. split; [reflexivity|]. intros rho N. split.
        * exact (ev_simplify A laws lit_add lit_mul rho N _ _ _ HR).
        * exact (ev_simplify A laws lit_add lit_mul rho N _ _ _ HK).
  Qed.
End Solution.

(** ** Stopping changes nothing else *)
Definition refines {X} (r s : res X) : Prop := forall a, r = Got a -> s = Got a.
Lemma refines_bind {X Y} (r s : res X) (f g : X -> res Y) : refines r s -> (forall x, refines (f x) (g x)) -> refines (rbind r f) (rbind s g).
Proof. intros H K a E. apply rbind_inv in E as (b & E1 & E2). apply H in E1. rewrite E1. cbn. now apply K. Qed.
Lemma refines_refl {X} (r : res X) : refines r r.
Proof. intros a. auto. Qed.
Lemma refines_map {X Y} (f g : X -> res Y) : (forall x, refines (f x) (g x)) -> forall l, refines (map_res f l) (map_res g l).
Proof.
  intros H l. induction l as [|x r IH]; [apply refines_refl|]. cbn [map_res]. apply refines_bind; [apply H|]. intros y. apply refines_bind; [exact IH|]. intros ys. apply refines_refl.
Qed.
Lemma refines_transform f g : (forall x, refines (f x) (g x)) -> forall t, refines (transform f t) (transform g t).
Proof.
  intros H. induction t as [v|x ix|o ch IH] using tree_ind'; cbn [transform]; try apply H. apply refines_bind; [|intros m; apply H].
  induction IH as [|c r Hc Hr IHr]; [apply refines_refl|]. cbn [map_res]. apply refines_bind; [exact Hc|]. intros y. apply refines_bind; [exact IHr|]. intros ys. apply refines_refl.
Qed.
Lemma refines_remove t f : refines (remove_factor true t f) (remove_factor false t f).
Proof.
  intros a. destruct t as [| |[] ch]; cbn [remove_factor]; auto. destruct (remove_first f ch) as [[|b l]|]; auto.
  destruct (true && _); [discriminate|]. auto.
Qed.
Lemma refines_extract t f : refines (extract_factor true t f) (extract_factor false t f).
Proof.
  unfold extract_factor. apply refines_bind; [apply refines_refl|]. intros l. apply refines_bind; [|intros m; apply refines_refl].
  apply refines_map. intros u. apply refines_remove.
Qed.
Lemma refines_factorout n t : refines (factorout_common true n t) (factorout_common false n t).
Proof.
  revert t. induction n as [|n IH]; intros t; [apply refines_refl|]. cbn [factorout_common]. destruct t as [| |[] ch]; try apply refines_refl.
  destruct ch as [|a [|b r]]; try apply refines_refl.
  apply refines_bind; [apply refines_refl|]. intros f. destruct (Nat.leb _ _); [apply refines_refl|]. apply refines_bind; [apply refines_extract|].
  intros x. apply refines_bind; [apply refines_transform; exact IH|]. intros y. destruct (filter (fun c => negb _) _) as [|c [|d s]]; try apply refines_refl.
    apply refines_bind; [apply IH|]. intros z. apply refines_refl.
Qed.
Lemma refines_simplify n t : refines (simplify true n t) (simplify false n t).
Proof. unfold simplify. apply refines_bind; [apply refines_transform; intros u; apply refines_factorout|]. intros u. apply refines_refl. Qed.
Lemma refines_solve n l r v : refines (solve_equation true n l r v) (solve_equation false n l r v).
Proof.
  unfold solve_equation. destruct (_ || _); [apply refines_refl|]. apply refines_bind; [apply refines_refl|]. intros l1. apply refines_bind; [apply refines_refl|]. intros r1.
  destruct (move_constants l1 r1 v) as [l2 r2]. apply refines_bind; [destruct (teqb l2 v); [apply refines_refl|apply refines_extract]|]. intros l3.
  apply refines_bind; [apply refines_refl|]. intros [l4 r4]. apply refines_bind; [apply refines_simplify|]. intros l5. apply refines_bind; [apply refines_simplify|]. intros r5.
  apply refines_refl.
Qed.

(** ** Names and operations of the solution *)
Lemma solve_wf (pv : str -> list idx -> Prop) (po : op -> Prop) strict n lhs x ix l e :
  po Addition -> po Multiplication -> po Minusexpr -> po Subtraction -> pv $"cpp_val" [] -> pv x ix -> x <> $"cpp_val" -> wf pv po lhs ->
  solve_equation strict n lhs cpp_val (TVar x ix) = Got (l, e) ->
  wf pv po l /\ (wf pv po e \/ exists R K, e = TTree Division [R; K] /\ wf pv po R /\ wf pv po K).
Proof.
  intros Pa Pm Pn Ps Pc Px Nx W H. destruct (solve_inv _ _ _ _ _ _ _ Nx H) as (L & L1 & R1 & Hm & HL & HM & CR & jx & -> & D). clear H.
  assert (WL : wf pv po L) by exact (wf_normalize pv po Pa Pm Pn _ _ HL W).
  destruct (wf_constants pv po Pa Pm Pn _ _ _ _ _ Ps HM WL) as [W1 W2]; [now constructor|].
  destruct D as [[-> He]|(-> & u & R & K & Hx & Cu & HR & HK & ->)].
  - split; [exact W1|]. left. exact (wf_simplify pv po Pa Pm _ _ _ _ He W2).
  - assert (Wu : wf pv po (TTree Multiplication [TVar x ix; u])) by (eapply wf_extract; [exact Pa|exact Pm|exact Hx|exact W1|now constructor]).
    assert (Wu' : wf pv po u) by (apply wf_ch in Wu; inversion Wu as [|? ? ? Wu']; now inversion Wu').
    split.
    + now constructor.
    + right. exists R, K. split; [reflexivity|]. split; [exact (wf_simplify pv po Pa Pm _ _ _ _ HR W2)|].
      refine (wf_simplify pv po Pa Pm _ _ _ _ HK _). constructor; [exact Pm|]. now constructor.
Qed.

Lemma solve_free strict n lhs x ix l e : x <> $"cpp_val" -> solve_equation strict n lhs cpp_val (TVar x ix) = Got (l, e) ->
  wf (fun z _ => z <> x) (fun _ => True) e.
Proof.
  intros Nx H. destruct (solve_inv _ _ _ _ _ _ _ Nx H) as (L & L1 & R1 & Hm & HL & HM & CR & jx & -> & D). clear H.
  assert (W1 : wf (fun z _ => z <> x) (fun _ => True) R1) by (now apply (contains_wf x ix (fun _ => True) _ (fun _ => I))).
  destruct D as [[-> He]|(-> & u & R & K & Hx & Cu & HR & HK & ->)].
  - exact (wf_simplify _ (fun _ => True) I I _ _ _ _ He W1).
  - assert (Wu : wf (fun z _ => z <> x) (fun _ => True) u) by (now apply (contains_wf x ix (fun _ => True) _ (fun _ => I))).
    constructor; [exact I|]. constructor; [exact (wf_simplify _ (fun _ => True) I I _ _ _ _ HR W1)|]. constructor; [|constructor].
    refine (wf_simplify _ (fun _ => True) I I _ _ _ _ HK _). constructor; [exact I|]. now constructor.
Qed.

Lemma wf_vars (pv : str -> list idx -> Prop) t : wf pv (fun _ => True) t <-> forall z jx, In (z, jx) (vars_of t) -> pv z jx.
Proof.
  induction t as [v|x ix|o ch IH] using tree_ind'; cbn [vars_of].
  - split; [intros _ z jx []|constructor].
  - split; [intros W z jx [E|[]]; injection E as <- <-; now inversion W|]. intros H. constructor. apply H. now left.
  - split.
    + intros W z jx H. apply wf_ch in W. apply in_flat_map in H as (c & Hc & H). rewrite Forall_forall in IH, W. exact (proj1 (IH c Hc) (W c Hc) _ _ H).
    + intros H. constructor; [exact I|]. rewrite Forall_forall in *. intros c Hc. apply (IH c Hc). intros z jx Hz. apply H. apply in_flat_map. eauto.
Qed.
Lemma wf_uses p t : wf (fun _ _ => True) (fun o => o <> p) t <-> uses p t = false.
Proof.
  induction t as [v|x ix|o ch IH] using tree_ind'; cbn [uses].
  - split; [reflexivity|constructor].
  - split; [reflexivity|now constructor].
  - split.
    + intros W. inversion W as [| |? ? Ho Hc]; subst. apply orb_false_intro.
      * destruct (op_eqb p o) eqn:E; [|reflexivity]. apply op_eqb_eq in E. congruence.
      * clear W. induction IH as [|c r H1 H2 IHr]; [reflexivity|]. inversion Hc; subst. cbn [existsb]. rewrite (proj1 H1) by assumption. auto.
    + intros H. apply orb_false_elim in H as [Ho Hc]. constructor.
      * intros ->. clear -Ho. match type of Ho with op_eqb ?q ?q = false => destruct q; discriminate Ho end.
      * induction IH as [|c r H1 H2 IHr]; constructor; cbn [existsb] in Hc; apply orb_false_elim in Hc as [? ?]; [now apply H1|auto].
Qed.
Lemma teval_ext A rho rho' t : (forall z ix, In (z, ix) (vars_of t) -> rho z ix = rho' z ix) -> teval A rho t = teval A rho' t.
Proof.
  induction t as [v|x ix|o ch IH] using tree_ind'; intros H; cbn [vars_of] in H.
  - reflexivity.
  - apply H. now left.
  - assert (F : forall c, In c ch -> teval A rho c = teval A rho' c).
    { intros c Hc. rewrite Forall_forall in IH. apply (IH c Hc). intros z ix Hz. apply H. apply in_flat_map. eauto. }
    assert (E : map (teval A rho) ch = map (teval A rho') ch) by (apply map_ext_in; exact F).
    destruct o; cbn [teval]; try (now rewrite E).
    all: destruct ch as [|a [|b r]]; try reflexivity; try (rewrite (F a) by (now left)); try (rewrite (F b) by (right; now left)); reflexivity.
Qed.

(** values by name *)
Definition by_name {X} (lhs : tree) (rho : str -> list idx -> X) : str -> list idx -> X :=
  fun z _ => rho z match find (fun q => str_eqb (fst q) z) (($"cpp_val", []) :: vars_of lhs) with Some q => snd q | None => [] end.
Lemma by_name_var {X} lhs (rho : str -> list idx -> X) z ix : one_indexing lhs -> ~ In $"cpp_val" (map fst (vars_of lhs)) ->
  In (z, ix) (($"cpp_val", []) :: vars_of lhs) -> by_name lhs rho z ix = rho z ix.
Proof.
  intros O N [E|H].
  - injection E as <- <-. reflexivity.
  - unfold by_name. cbn [find fst]. destruct (str_eqb $"cpp_val" z) eqn:E.
    { apply str_eqb_eq in E as <-. exfalso. apply N. apply (in_map fst) in H. exact H. }
    destruct (find _ (vars_of lhs)) as [[w jx]|] eqn:F.
    + apply find_some in F as [F1 F2]. apply str_eqb_eq in F2. cbn in F2. subst w. cbn [snd]. now rewrite (O z jx ix F1 H).
    + apply (find_none _ _ F) in H. cbn in H. now rewrite str_eqb_refl in H.
Qed.

Section Main.
  Variable A : arith.
  Hypothesis laws : ring_theory (a_zero A) (a_one A) (a_add A) (a_mul A) (a_sub A) (a_neg A) eq.
  Add Ring A_ring2 : laws.
  Hypothesis div_law : forall a b, a_div A a b = a_mul A a (a_div A (a_one A) b).
  Hypothesis lit_add : forall a b, a_lit A (NInt (a + b)) = a_add A (a_lit A (NInt a)) (a_lit A (NInt b)).
  Hypothesis lit_mul : forall a b, a_lit A (NInt (a * b)) = a_mul A (a_lit A (NInt a)) (a_lit A (NInt b)).

  Lemma solution n lhs x ix l e : In (x, ix) (vars_of lhs) -> one_indexing lhs -> ~ In $"cpp_val" (map fst (vars_of lhs)) ->
    solve_equation true n lhs cpp_val (TVar x ix) = Got (l, e) ->
    l = TVar x ix /\
    (forall z jx, In (z, jx) (vars_of e) -> z <> x /\ In (z, jx) (($"cpp_val", []) :: vars_of lhs)) /\
    forall rho, exists r k,
      (forall y, teval A (change x y rho) lhs = a_add A (a_sub A (rho $"cpp_val" []) r) (a_mul A y k)) /\
      ((k = a_one A /\ plain_solution lhs e /\ teval A rho e = r) \/
       exists R K, e = TTree Division [R; K] /\ teval A rho R = r /\ teval A rho K = k).
  Proof.
    intros Hx O N H.
    assert (Nx : x <> $"cpp_val") by (intros ->; apply N; now apply (in_map fst) in Hx).
    assert (W : wf (fun z jx => In (z, jx) (($"cpp_val", []) :: vars_of lhs)) (fun _ => True) lhs) by (apply wf_vars; intros z jx Hz; now right).
    destruct (solve_wf _ (fun _ => True) _ _ _ _ _ _ _ I I I I (or_introl eq_refl) (or_intror Hx) Nx W H) as [Wl We].
    assert (We' : wf (fun z jx => In (z, jx) (($"cpp_val", []) :: vars_of lhs)) (fun _ => True) e).
    { destruct We as [We|(R & K & -> & WR & WK)]; [exact We|]. constructor; [exact I|]. repeat constructor; assumption. }
    clear We W. pose proof (proj1 (wf_vars _ _) We') as Ve. pose proof (proj1 (wf_vars _ _) (solve_free _ _ _ _ _ _ _ Nx H)) as Fe.
    destruct (solve_ev A laws div_law lit_add lit_mul _ _ _ _ _ _ Nx H) as (jx & -> & R & K & CR & CK & E & D).
    assert (jx = ix) as ->.
    { inversion Wl as [|? ? Hj|]; subst. destruct Hj as [Hj|Hj]; [exfalso; apply Nx; symmetry; exact (f_equal fst Hj)|]. exact (O x jx ix Hj Hx). }
    split; [reflexivity|]. split; [intros z jx Hz; split; [exact (Fe _ _ Hz)|exact (Ve _ _ Hz)]|].
    intros rho. set (rho' := by_name lhs rho). assert (Nm : forall z i j, rho' z i = rho' z j) by reflexivity.
    assert (B : forall t, (forall z jx, In (z, jx) (vars_of t) -> In (z, jx) (($"cpp_val", []) :: vars_of lhs)) -> teval A rho' t = teval A rho t).
    { intros t Ht. apply teval_ext. intros z jx Hz. apply by_name_var; auto. }
    exists (teval A rho' R), (teval A rho' K). split.
    - intros y. set (c := change x y rho'). assert (Nc : forall z i j, c z i = c z j) by (intros z i j; unfold c, change; destruct (str_eqb z x); [reflexivity|apply Nm]).
      pose proof (E c Nc) as Ec. unfold c in Ec. rewrite (free_ev A x ix y rho' R CR), (free_ev A x ix y rho' K CK) in Ec.
      rewrite change_same in Ec. unfold change in Ec at 2.
      destruct (str_eqb $"cpp_val" x) eqn:Q; [apply str_eqb_eq in Q; congruence|].
      assert (Q1 : teval A (change x y rho') lhs = teval A (change x y rho) lhs).
      { apply teval_ext. intros z jx Hz. unfold change. destruct (str_eqb z x); [reflexivity|]. apply by_name_var; auto. now right. }
      rewrite Q1 in Ec. assert (Q2 : rho' $"cpp_val" [] = rho $"cpp_val" []) by (apply by_name_var; auto; now left). rewrite Q2 in Ec.
      transitivity (a_sub A (a_add A (teval A (change x y rho) lhs) (teval A rho' R)) (teval A rho' R)); [ring|]. rewrite Ec. ring.
    - destruct D as [(-> & P & D)|(R' & K' & -> & D)].
      + left. split; [reflexivity|]. split; [exact P|]. rewrite <- (D rho' Nm). symmetry. apply B. exact Ve.
      + right. exists R', K'. split; [reflexivity|]. destruct (D rho' Nm) as [D1 D2]. rewrite <- D1, <- D2.
        split; symmetry; apply B; intros z jx Hz; apply Ve; cbn [vars_of flat_map]; apply in_or_app; [now left|]. right. now rewrite app_nil_r.
  Qed.
End Main.

(** ** Exact numbers *)
Lemma rationals_ring : ring_theory (a_zero rationals) (a_one rationals) (a_add rationals) (a_mul rationals) (a_sub rationals) (a_neg rationals) eq.
Proof. exact Qcrt. Qed.
Lemma rationals_div a b : a_div rationals a b = a_mul rationals a (a_div rationals (a_one rationals) b).
Proof. change ((a : Qc) / b = a * (1 / b))%Qc. unfold Qcdiv. ring. Qed.
Lemma rationals_add a b : a_lit rationals (NInt (a + b)) = a_add rationals (a_lit rationals (NInt a)) (a_lit rationals (NInt b)).
Proof.
  cbn. unfold Qcplus. apply Q2Qc_eq_iff. cbn [this Q2Qc]. rewrite !Qred_correct, inject_Z_plus. reflexivity.
Qed.
Lemma rationals_mul a b : a_lit rationals (NInt (a * b)) = a_mul rationals (a_lit rationals (NInt a)) (a_lit rationals (NInt b)).
Proof.
  cbn. unfold Qcmult. apply Q2Qc_eq_iff. cbn [this Q2Qc]. rewrite !Qred_correct, inject_Z_mult. reflexivity.
Qed.
Lemma rational_one (r : Qc) : r = Qcdiv r (a_one rationals).
Proof. change (r = r / 1)%Qc. field. discriminate. Qed.
Lemma rational_linear (v r y k : Qc) : k <> Q2Qc 0 -> (v - r + y * k = v <-> y = r / k)%Qc.
Proof.
  intros Hk. split.
  - intros E. assert (F : (y * k = r)%Qc). { transitivity (v - r + y * k + r - v)%Qc; [ring|]. rewrite E. ring. }
    rewrite <- F. now field.
  - intros ->. field. exact Hk.
Qed.
Lemma rational_const (v r y y' : Qc) : (v - r + y * Q2Qc 0 = v - r + y' * Q2Qc 0)%Qc.
Proof. ring. Qed.
Lemma solved_rational n lhs x ix l e : In (x, ix) (vars_of lhs) -> one_indexing lhs -> ~ In $"cpp_val" (map fst (vars_of lhs)) ->
  solve_equation true n lhs cpp_val (TVar x ix) = Got (l, e) ->
  forall rho, (exists y y', teval rationals (change x y rho) lhs <> teval rationals (change x y' rho) lhs) ->
  forall y, teval rationals (change x y rho) lhs = rho $"cpp_val" [] <-> y = teval rationals rho e.
Proof.
  intros Hx O N H rho (y1 & y2 & Hy) y.
  destruct (solution rationals rationals_ring rationals_div rationals_add rationals_mul _ _ _ _ _ _ Hx O N H) as (_ & _ & S).
  destruct (S rho) as (r & k & E & D). rewrite !E in Hy. rewrite E. clear E S H.
  assert (Hk : k <> Q2Qc 0) by (intros ->; apply Hy; apply rational_const).
  assert (X : teval rationals rho e = Qcdiv r k).
  { destruct D as [(-> & _ & ->)|(R & K & -> & <- & <-)]; [apply rational_one|reflexivity]. }
  rewrite X. now apply rational_linear.
Qed.

(** ** Integers *)
(** any value for quotients *)
Definition no_div : arith := {|
  car := Z; a_lit := a_lit cpp_ints; a_add := Z.add; a_mul := Z.mul; a_sub := Z.sub; a_neg := Z.opp; a_div := fun _ _ => 0; a_mod := Z.rem |}.
Lemma no_div_ring : ring_theory (a_zero no_div) (a_one no_div) (a_add no_div) (a_mul no_div) (a_sub no_div) (a_neg no_div) eq.
Proof. exact Zth. Qed.
Lemma no_div_same (rho : str -> list idx -> Z) t : uses Division t = false -> teval cpp_ints rho t = teval no_div rho t.
Proof.
  intros H. apply wf_uses in H. induction t as [v|x ix|o ch IH] using tree_ind'; [reflexivity|reflexivity|].
  inversion H as [| |? ? Ho Hc]; subst. rewrite Forall_forall in IH, Hc.
  assert (F : forall c, In c ch -> teval cpp_ints rho c = teval no_div rho c) by (intros c Hi; exact (IH c Hi (Hc c Hi))).
  assert (E : map (teval cpp_ints rho) ch = map (teval no_div rho) ch) by (apply map_ext_in; exact F).
  destruct o; try congruence; cbn [teval]; try (now rewrite E).
  all: destruct ch as [|a [|b r]]; try reflexivity; try (rewrite (F a) by (now left)); try (rewrite (F b) by (right; now left)); reflexivity.
Qed.
Lemma solved_integer n lhs x ix l e : In (x, ix) (vars_of lhs) -> one_indexing lhs -> ~ In $"cpp_val" (map fst (vars_of lhs)) ->
  uses Division lhs = false ->
  solve_equation true n lhs cpp_val (TVar x ix) = Got (l, e) ->
  forall rho y, teval cpp_ints (change x y rho) lhs = rho $"cpp_val" [] ->
  (exists y', teval cpp_ints (change x y' rho) lhs <> teval cpp_ints (change x y rho) lhs) -> teval cpp_ints rho e = y.
Proof.
  intros Hx O N U H rho y Hv (y' & Hy).
  destruct (solution no_div no_div_ring (fun a b => eq_sym (Z.mul_0_r a)) (fun a b => eq_refl) (fun a b => eq_refl) _ _ _ _ _ _ Hx O N H) as (_ & _ & S).
  assert (Nx : x <> $"cpp_val") by (intros ->; apply N; now apply (in_map fst) in Hx).
  assert (We : uses Division e = false \/ exists R K, e = TTree Division [R; K] /\ uses Division R = false /\ uses Division K = false).
  { apply wf_uses in U. destruct (solve_wf (fun _ _ => True) (fun o => o <> Division) _ _ _ _ _ _ _ ltac:(discriminate) ltac:(discriminate) ltac:(discriminate) ltac:(discriminate) I I Nx U H)
      as [_ [We|(R & K & -> & WR & WK)]]; [left; now apply wf_uses|right]. exists R, K. split; [reflexivity|]. split; now apply wf_uses. }
  destruct (S rho) as (r & k & E & D). rewrite !(no_div_same _ _ U) in *. rewrite !E in *. clear S E H. cbn in Hv, Hy.
  assert (Hk : k <> 0) by (intros ->; apply Hy; ring).
  destruct D as [(-> & P & D)|(R & K & -> & DR & DK)].
  - change (a_one no_div) with 1 in Hv. apply wf_uses in U. apply (P (fun o => o <> Division)) in U; try discriminate.
    apply wf_uses in U. rewrite (no_div_same _ _ U), D. lia.
  - destruct We as [We|(R' & K' & Q & WR & WK)]; [discriminate We|]. injection Q as <- <-. cbn [teval]. rewrite (no_div_same _ _ WR), (no_div_same _ _ WK), DR, DK.
    replace r with (y * k) by lia. cbn. now apply Z.quot_mul.
Qed.

(** ** Comparison with the reader *)
Lemma zeval_tree (look : str -> list idx -> val -> Prop) (rho : str -> list idx -> Z) e z :
  (forall x ix v w, look x ix v -> look x ix w -> v = w) ->
  (forall x ix, In (x, ix) (vars_of (tree_of e)) -> look x ix (vint (rho x ix))) ->
  zeval look e z -> teval cpp_ints rho (tree_of e) = z /\ uses Division (tree_of e) = false.
Proof.
  intros F V H. induction H as [d z|e x ix z He Hx|e x ix a z He Hx Ha IH|a x Ha IH|a b x y Ha IHa Hb IHb|a b x y Ha IHa Hb IHb|a b x y Ha IHa Hb IHb].
  - split; reflexivity.
  - assert (X : tree_of e = TVar x ix) by (destruct He as [->| ->]; reflexivity). rewrite X in *. split; [|reflexivity]. cbn.
    assert (Y : vint (rho x ix) = vint z) by (eapply F; [apply V; now left|exact Hx]). now injection Y.
  - assert (X : tree_of e = TVar x ix) by (destruct He as [->| ->]; reflexivity). rewrite X in *.
    assert (Y : vint (rho x ix) = VExpr a) by (eapply F; [apply V; now left|exact Hx]). discriminate Y.
  - cbn [tree_of vars_of flat_map] in V. rewrite app_nil_r in V. destruct (IH V) as [E U]. cbn [tree_of uses existsb]. rewrite U. cbn. now rewrite E.
  - cbn [tree_of vars_of flat_map] in V. rewrite app_nil_r in V.
    destruct (IHa (fun x ix H => V x ix (in_or_app _ _ _ (or_introl H)))) as [Ea Ua]. destruct (IHb (fun x ix H => V x ix (in_or_app _ _ _ (or_intror H)))) as [Eb Ub].
    cbn [tree_of uses existsb]. rewrite Ua, Ub. split; [|reflexivity]. cbn. rewrite Ea, Eb. lia.
  - cbn [tree_of vars_of flat_map] in V. rewrite app_nil_r in V.
    destruct (IHa (fun x ix H => V x ix (in_or_app _ _ _ (or_introl H)))) as [Ea Ua]. destruct (IHb (fun x ix H => V x ix (in_or_app _ _ _ (or_intror H)))) as [Eb Ub].
    cbn [tree_of uses existsb]. rewrite Ua, Ub. split; [|reflexivity]. cbn. rewrite Ea, Eb. lia.
  - cbn [tree_of vars_of flat_map] in V. rewrite app_nil_r in V.
    destruct (IHa (fun x ix H => V x ix (in_or_app _ _ _ (or_introl H)))) as [Ea Ua]. destruct (IHb (fun x ix H => V x ix (in_or_app _ _ _ (or_intror H)))) as [Eb Ub].
    cbn [tree_of uses existsb]. rewrite Ua, Ub. split; [|reflexivity]. cbn. rewrite Ea, Eb. lia.
Qed.
Lemma seen_one sc x ix v w : seen sc x ix v -> seen sc x ix w -> v = w.
Proof. unfold seen. congruence. Qed.
Lemma same_as_reader en e u z s s' v n l e' rho :
  o_all (ps_opts s) = false ->
  unknown_in (seen (scope_of s)) u e -> (forall w, ~ seen (scope_of s) (fst u) (snd u) w) ->
  exact_range (seen (scope_of s)) u e z ->
  map_field en (vint z) e s = (Ok false, s') ->
  seen (scope_of s') (fst u) (snd u) v ->
  (forall x ix, In (x, ix) (vars_of (tree_of e)) -> seen (scope_of s') x ix (vint (rho x ix))) ->
  In u (vars_of (tree_of e)) -> one_indexing (tree_of e) -> ~ In $"cpp_val" (map fst (vars_of (tree_of e))) -> rho $"cpp_val" [] = z ->
  (exists y y', teval cpp_ints (change (fst u) y rho) (tree_of e) <> teval cpp_ints (change (fst u) y' rho) (tree_of e)) ->
  solve_equation true n (tree_of e) cpp_val (TVar (fst u) (snd u)) = Got (l, e') ->
  v = vint (teval cpp_ints rho e').
Proof.
  intros O U Nu R M Sv V Hu One Nc Hz (y1 & y2 & Hy) H. destruct u as [x ix]. cbn [fst snd] in *.
  destruct (field_inverted en e (x, ix) z s s' v O U Nu R M Sv) as [Z _].
  destruct (zeval_tree _ rho _ _ (seen_one _) V Z) as [E D].
  rewrite (seen_one _ _ _ _ _ Sv (V x ix Hu)). f_equal. symmetry.
  assert (C : teval cpp_ints (change x (rho x ix) rho) (tree_of e) = z).
  { rewrite <- E. apply teval_ext. intros w jx Hw. unfold change. destruct (str_eqb w x) eqn:Q; [|reflexivity].
    apply str_eqb_eq in Q as ->. now rewrite (One x jx ix Hw Hu). }
  apply (solved_integer n (tree_of e) x ix l e' Hu One Nc D H rho (rho x ix)); [rewrite Hz; exact C|].
  destruct (Z.eq_dec (teval cpp_ints (change x y1 rho) (tree_of e)) z) as [X|X].
  - exists y2. intros Q. apply Hy. rewrite X. symmetry. transitivity z; [|reflexivity]. rewrite <- C. exact Q.
  - exists y1. intros Q. apply X. rewrite <- C. exact Q.
Qed.
