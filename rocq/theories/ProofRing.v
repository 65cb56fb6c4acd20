(** The log of records (C46). *)
From Coq Require Import Ascii String ZArith Bool Lia List.
From Verif Require Import PyBase ModelInterp ModelPath ModelTools SpecPath SpecTools ProofPath.
Import ListNotations.
Open Scope Z_scope.

Section Ring.
Context {A : Type} (c : nat) (C0 : (0 < c)%nat).

Record in_step (l : list A) (r : ring A) : Prop := {
  st_cap : rb_cap r = Z.of_nat c;
  st_num : rb_num r = Z.of_nat (length l);
  st_tail : rb_tail r = match l with [] => -1 | _ => Z.of_nat ((length l - 1) mod c) end;
  st_len : length (rb_buf r) = c;
  st_buf : forall i x, nth_error l i = Some x -> (length l <= i + c)%nat -> nth_error (rb_buf r) (i mod c) = Some (Some x)
}.

Lemma mod_next n : (n <> 0)%nat -> (((n - 1) mod c + 1) mod c = n mod c)%nat.
Proof. intros H. rewrite Nat.add_mod_idemp_l by lia. f_equal. lia. Qed.
Lemma next_slot l r : in_step l r -> (rb_tail r + 1) mod rb_cap r = Z.of_nat (length l mod c).
Proof.
  intros S. rewrite (st_tail _ _ S), (st_cap _ _ S). destruct l as [|a l].
  - cbn [length]. rewrite Nat.mod_0_l by lia. apply Z.mod_0_l. lia.
  - change 1 with (Z.of_nat 1). rewrite <- Nat2Z.inj_add, <- Nat2Z.inj_mod. f_equal. apply mod_next. cbn [length]. lia.
Qed.
Lemma slots_differ i j : (i < j)%nat -> (j < i + c)%nat -> (i mod c <> j mod c)%nat.
Proof.
  intros H L E. assert (M : ((j - i) mod c = 0)%nat).
  { rewrite (Nat.div_mod i c) in H |- * by lia. rewrite (Nat.div_mod j c) at 1 by lia. rewrite E.
    replace (c * (j / c) + j mod c - (c * (i / c) + j mod c))%nat with ((j / c - i / c) * c)%nat by nia. apply Nat.mod_mul. lia. }
  rewrite Nat.mod_small in M by lia. lia.
Qed.

Lemma enqueue_step l r x : in_step l r -> in_step (l ++ [x]) (enqueue x r).
Proof.
  intros S. unfold enqueue. pose proof (next_slot l r S) as N.
  constructor; cbn [rb_cap rb_num rb_tail rb_buf].
  - apply (st_cap _ _ S).
  - rewrite (st_num _ _ S), app_length. cbn [length]. lia.
  - rewrite N, app_length. cbn [length]. replace (length l + 1 - 1)%nat with (length l) by lia. destruct l; reflexivity.
  - rewrite length_upd. apply (st_len _ _ S).
  - intros i y G L. rewrite app_length in L. cbn [length] in L. rewrite N, Nat2Z.id.
    assert (B : (length l mod c < length (rb_buf r))%nat) by (rewrite (st_len _ _ S); apply Nat.mod_upper_bound; lia).
    destruct (Nat.lt_ge_cases i (length l)) as [I|I].
    + rewrite nth_error_app1 in G by exact I. rewrite nth_upd_other; [apply (st_buf _ _ S); [exact G|lia]|]. intros E. apply (slots_differ i (length l)); [exact I|lia|congruence].
    + rewrite nth_error_app2 in G by exact I. assert (i = length l).
      { destruct (i - length l)%nat eqn:D; [lia|]. cbn in G. destruct n; discriminate. }
      subst i. rewrite Nat.sub_diag in G. injection G as <-. apply nth_upd_same. exact B.
Qed.
Lemma new_step : in_step [] (ring_new (Z.of_nat c)).
Proof. constructor; cbn; try reflexivity; [rewrite repeat_length; apply Nat2Z.id|]. intros [|i] x G; discriminate. Qed.
Lemma enqueue_all_step l2 : forall l r, in_step l r -> in_step (l ++ l2) (enqueue_all l2 r).
Proof.
  induction l2 as [|x l2 IH]; intros l r S; cbn [enqueue_all fold_left]; [rewrite app_nil_r; exact S|].
  replace (l ++ x :: l2) with ((l ++ [x]) ++ l2) by (rewrite <- app_assoc; reflexivity). apply IH. apply enqueue_step. exact S.
Qed.

Lemma nth_error_ext {B} (l m : list B) : (forall i, nth_error l i = nth_error m i) -> l = m.
Proof.
  revert m. induction l as [|x l IH]; intros [|y m] H; [reflexivity|specialize (H 0%nat); discriminate|specialize (H 0%nat); discriminate|].
  f_equal; [specialize (H 0%nat); injection H as ->; reflexivity|]. apply IH. intros i. exact (H (S i)).
Qed.
Lemma nth_error_firstn {B} (l : list B) n i : nth_error (firstn n l) i = if (i <? n)%nat then nth_error l i else None.
Proof.
  revert n i. induction l as [|x l IH]; intros [|n] [|i]; try reflexivity; cbn [firstn nth_error].
  - destruct (S i <? S n)%nat; reflexivity.
  - rewrite IH. reflexivity.
Qed.
Lemma nth_error_skipn {B} (l : list B) n i : nth_error (skipn n l) i = nth_error l (n + i).
Proof. revert n. induction l as [|x l IH]; intros [|n]; try reflexivity; [destruct i; reflexivity|]. cbn [skipn]. rewrite IH. reflexivity. Qed.

Lemma queue_step l r : in_step l r -> get_queue r = map Some (last_n c l).
Proof.
  intros S. apply nth_error_ext. intros j. unfold get_queue, last_n. rewrite (st_cap _ _ S), (st_num _ _ S).
  assert (B : forall i, (i < length l)%nat -> (length l <= i + c)%nat -> nth_error (rb_buf r) (i mod c) = option_map Some (nth_error l i)).
  { intros i I L. destruct (nth_error l i) as [x|] eqn:G; [exact (st_buf _ _ S i x G L)|]. apply nth_error_None in G. lia. }
  rewrite nth_error_map, nth_error_skipn. destruct (Z.of_nat c <? Z.of_nat (length l)) eqn:E.
  - apply Z.ltb_lt in E. set (n := length l) in *. set (t := Z.to_nat (rb_tail r + 1)).
    assert (T : t = ((n - 1) mod c + 1)%nat).
    { unfold t. rewrite (st_tail _ _ S). destruct l as [|a l']; [cbn in n; lia|]. fold n. lia. }
    assert (TC : (t <= c)%nat) by (rewrite T; pose proof (Nat.mod_upper_bound (n - 1) c); lia).
    assert (LS : length (skipn t (rb_buf r)) = (c - t)%nat) by (rewrite skipn_length, (st_len _ _ S); reflexivity).
    destruct (Nat.lt_ge_cases j c) as [J|J].
    + rewrite <- (B (n - c + j)%nat) by lia.
      assert (M : ((n - c + j) mod c = (t + j) mod c)%nat).
      { rewrite <- (Nat.mod_add (n - c + j) 1 c) by lia. replace (n - c + j + 1 * c)%nat with (n + j)%nat by lia.
        rewrite T. replace ((n - 1) mod c + 1 + j)%nat with ((n - 1) mod c + (1 + j))%nat by lia. rewrite Nat.add_mod_idemp_l by lia. f_equal. lia. }
      rewrite M. destruct (Nat.lt_ge_cases j (c - t)) as [K|K].
      * rewrite nth_error_app1 by (rewrite LS; exact K). rewrite nth_error_skipn. rewrite (Nat.mod_small (t + j)) by lia. reflexivity.
      * rewrite nth_error_app2 by (rewrite LS; exact K). rewrite LS, nth_error_firstn. rewrite (proj2 (Nat.ltb_lt _ _)) by lia.
        f_equal. replace (t + j)%nat with (j - (c - t) + 1 * c)%nat at 1 by lia. rewrite Nat.mod_add by lia. symmetry. apply Nat.mod_small. lia.
    + replace (nth_error l (n - c + j)) with (@None A) by (symmetry; apply nth_error_None; lia). apply nth_error_None.
      rewrite app_length, LS, firstn_length, (st_len _ _ S). lia.
  - apply Z.ltb_ge in E. set (n := length l) in *. replace (n - c)%nat with 0%nat by lia. cbn [Nat.add].
    assert (T : Z.to_nat (rb_tail r + 1) = n).
    { rewrite (st_tail _ _ S). destruct l as [|a l']; [reflexivity|]. fold n. rewrite Nat.mod_small by (cbn in n; lia). cbn [length] in n. lia. }
    rewrite T, nth_error_firstn. destruct (j <? n)%nat eqn:J.
    + apply Nat.ltb_lt in J. rewrite <- (B j) by lia. rewrite Nat.mod_small by lia. reflexivity.
    + apply Nat.ltb_ge in J. replace (nth_error l j) with (@None A) by (symmetry; apply nth_error_None; exact J). reflexivity.
Qed.

(** after going back to a saved state, nothing saved has been overwritten *)
Lemma restore_step l1 l2 r : in_step l1 r -> (length l1 + length l2 <= c)%nat -> in_step l1 (load_state (dump_state r) (enqueue_all l2 r)).
Proof.
  intros S L. pose proof (enqueue_all_step l2 l1 r S) as S2. constructor; cbn [load_state dump_state rb_cap rb_num rb_tail rb_buf sv_cap sv_tail sv_num].
  - apply (st_cap _ _ S).
  - apply (st_num _ _ S).
  - apply (st_tail _ _ S).
  - apply (st_len _ _ S2).
  - intros i x G _. assert (I : (i < length l1)%nat) by (apply nth_error_Some; congruence).
    apply (st_buf _ _ S2); [rewrite nth_error_app1 by exact I; exact G|]. rewrite app_length. lia.
Qed.
Lemma restore_last l1 l2 x r : in_step (l1 ++ [x]) r -> (length l2 < c)%nat -> last_entry (load_state (dump_state r) (enqueue_all l2 r)) = Some x.
Proof.
  intros S L. pose proof (enqueue_all_step l2 _ r S) as S2. unfold last_entry. cbn [load_state dump_state rb_cap rb_num rb_tail rb_buf sv_cap sv_tail sv_num].
  assert (T : rb_tail r = Z.of_nat (length l1 mod c)).
  { rewrite (st_tail _ _ S), app_length. cbn [length]. replace (length l1 + 1 - 1)%nat with (length l1) by lia. destruct l1; reflexivity. }
  rewrite T. rewrite (proj2 (Z.ltb_ge (Z.of_nat (length l1 mod c)) 0)) by lia. rewrite Nat2Z.id. apply nth_error_nth. apply (st_buf _ _ S2).
  - rewrite nth_error_app1 by (rewrite app_length; cbn [length]; lia). rewrite nth_error_app2 by lia. rewrite Nat.sub_diag. reflexivity.
  - rewrite !app_length. cbn [length]. lia.
Qed.
End Ring.
