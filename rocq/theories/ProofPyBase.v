(** Lemmas about the Python primitives of [PyBase]. *)
From Coq Require Import Ascii String ZArith Bool Lia List.
From Verif Require Import PyBase.
Import ListNotations.
Open Scope Z_scope.

(** ** Characters *)

Lemma chr_eqb_eq a b : chr_eqb a b = true <-> a = b.
Proof. apply Ascii.eqb_eq. Qed.

Lemma chr_eqb_refl a : chr_eqb a a = true.
Proof. apply Ascii.eqb_refl. Qed.

Lemma str_eqb_eq a b : str_eqb a b = true <-> a = b.
Proof.
  revert b; induction a as [|x a IH]; destruct b as [|y b]; cbn; split; intros H;
    try discriminate; auto.
  - apply andb_true_iff in H as [H1 H2]. apply chr_eqb_eq in H1. apply IH in H2. congruence.
  - injection H as -> ->. rewrite chr_eqb_refl. cbn. now apply IH.
Qed.

Lemma str_eqb_refl a : str_eqb a a = true.
Proof. now apply str_eqb_eq. Qed.

Lemma str_eqb_neq a b : str_eqb a b = false <-> a <> b.
Proof.
  split.
  - intros H E. apply str_eqb_eq in E. congruence.
  - intros H. destruct (str_eqb a b) eqn:E; auto. apply str_eqb_eq in E. contradiction.
Qed.

(** ** Slices *)

Lemma length_slice {A} a b (s : list A) :
  length (slice a b s) = Nat.min (b - a) (length s - a).
Proof. unfold slice. now rewrite firstn_length, skipn_length. Qed.

Lemma slice_app_l {A} a b (s t : list A) :
  (b <= length s)%nat -> slice a b (s ++ t) = slice a b s.
Proof.
  intros H. unfold slice. rewrite skipn_app, firstn_app, skipn_length.
  replace (b - a - (length s - a))%nat with 0%nat by lia. cbn. apply app_nil_r.
Qed.

Lemma slice_app_r {A} a b (s t : list A) :
  (length s <= a)%nat -> slice a b (s ++ t) = slice (a - length s) (b - length s) t.
Proof.
  intros H. unfold slice. rewrite skipn_app.
  rewrite (skipn_all2 s) by lia. cbn [app].
  f_equal. destruct (Nat.le_gt_cases b (length s)); lia.
Qed.

Lemma slice_full {A} (s : list A) b : (length s <= b)%nat -> slice 0 b s = s.
Proof. intros H. unfold slice. cbn. rewrite Nat.sub_0_r. now apply firstn_all2. Qed.

(** the field at its own place *)
Lemma slice_at {A} (p f t : list A) a b :
  a = length p -> b = (length p + length f)%nat -> slice a b (p ++ f ++ t) = f.
Proof.
  intros -> ->. rewrite slice_app_r by lia.
  rewrite Nat.sub_diag. replace (_ + _ - _)%nat with (length f) by lia.
  rewrite slice_app_l by lia. now apply slice_full.
Qed.

Lemma slice_nil {A} a b : slice a b (@nil A) = [].
Proof. unfold slice. now rewrite skipn_nil, firstn_nil. Qed.

Lemma slice_beyond {A} a b (s : list A) : (length s <= a)%nat -> slice a b s = [].
Proof. intros H. unfold slice. rewrite skipn_all2 by lia. apply firstn_nil. Qed.

Lemma skipn_skipn {A} a b (s : list A) : skipn a (skipn b s) = skipn (b + a) s.
Proof.
  revert s; induction b; intros s; cbn; [reflexivity|].
  destruct s; [now rewrite skipn_nil|]. apply IHb.
Qed.

Lemma slice_split {A} a b c (s : list A) :
  (a <= b <= c)%nat -> slice a c s = slice a b s ++ slice b c s.
Proof.
  intros H. unfold slice.
  replace (c - a)%nat with ((b - a) + (c - b))%nat by lia.
  replace (skipn b s) with (skipn (b - a) (skipn a s)) by (rewrite skipn_skipn; f_equal; lia).
  set (u := skipn a s). clearbody u.
  revert u; induction (b - a)%nat as [|k IH]; intros u; cbn; [reflexivity|].
  destruct u; cbn; [now rewrite firstn_nil|]. f_equal. apply IH.
Qed.

(** ** Padding *)

Lemma length_spaces n : length (spaces n) = n.
Proof. apply repeat_length. Qed.

Lemma length_rjust n s : length (rjust n s) = Nat.max n (length s).
Proof. unfold rjust. rewrite app_length, length_spaces. lia. Qed.

Lemma length_ljust n s : length (ljust n s) = Nat.max n (length s).
Proof. unfold ljust. rewrite app_length, length_spaces. lia. Qed.

Lemma length_rjust_le n s : (length s <= n)%nat -> length (rjust n s) = n.
Proof. rewrite length_rjust. lia. Qed.

Lemma length_ljust_le n s : (length s <= n)%nat -> length (ljust n s) = n.
Proof. rewrite length_ljust. lia. Qed.

Lemma ljust_id n s : (n <= length s)%nat -> ljust n s = s.
Proof. intros H. unfold ljust. replace (n - length s)%nat with 0%nat by lia. apply app_nil_r. Qed.

Lemma rjust_id n s : (n <= length s)%nat -> rjust n s = s.
Proof. intros H. unfold rjust. now replace (n - length s)%nat with 0%nat by lia. Qed.

(** ** White space *)

Definition all_ws (s : str) : Prop := Forall (fun c => is_ws c = true) s.
Definition no_ws (s : str) : Prop := Forall (fun c => is_ws c = false) s.

Lemma spaces_ws n : all_ws (spaces n).
Proof. unfold all_ws, spaces. induction n; cbn; constructor; auto. Qed.

Lemma lstrip_ws s : all_ws s -> lstrip s = [].
Proof. induction 1; cbn; [reflexivity|]. now rewrite H. Qed.

Lemma lstrip_ws_app w s : all_ws w -> lstrip (w ++ s) = lstrip s.
Proof. induction 1; cbn; [reflexivity|]. now rewrite H. Qed.

Lemma lstrip_no c s : is_ws c = false -> lstrip (c :: s) = c :: s.
Proof. intros H. cbn. now rewrite H. Qed.

Lemma lstrip_id s : no_ws s -> lstrip s = s.
Proof. intros H. destruct H; [reflexivity|]. cbn. now rewrite H. Qed.

Lemma lstrip_nil_iff s : lstrip s = [] <-> all_ws s.
Proof.
  split.
  - induction s as [|c s IH]; intros H; [constructor|]. cbn in H.
    destruct (is_ws c) eqn:E; [|discriminate]. constructor; auto. now apply IH.
  - apply lstrip_ws.
Qed.

Lemma all_ws_rev s : all_ws s -> all_ws (rev s).
Proof. apply Forall_rev. Qed.

Lemma rstrip_id s : no_ws s -> rstrip s = s.
Proof. intros H. unfold rstrip. rewrite lstrip_id by (now apply Forall_rev). apply rev_involutive. Qed.

Lemma rstrip_ws_app s w : all_ws w -> rstrip (s ++ w) = rstrip s.
Proof.
  intros H. unfold rstrip. rewrite rev_app_distr, lstrip_ws_app; auto. now apply all_ws_rev.
Qed.

Lemma lstrip_suffix s : exists w, all_ws w /\ s = w ++ lstrip s.
Proof.
  induction s as [|c s (w & Hw & E)]; cbn.
  - exists []. split; [constructor|reflexivity].
  - destruct (is_ws c) eqn:Ec.
    + exists (c :: w). split; [now constructor|]. cbn. now f_equal.
    + exists []. split; [constructor|reflexivity].
Qed.

Lemma rstrip_prefix s : exists w, all_ws w /\ s = rstrip s ++ w.
Proof.
  destruct (lstrip_suffix (rev s)) as (w & Hw & E).
  exists (rev w). split; [now apply all_ws_rev|].
  apply (f_equal (@rev ascii)) in E. rewrite rev_involutive, rev_app_distr in E. exact E.
Qed.

Lemma strip_decomp s : exists w1 w2, all_ws w1 /\ all_ws w2 /\ s = w1 ++ strip s ++ w2.
Proof.
  destruct (lstrip_suffix s) as (w1 & H1 & E1).
  destruct (rstrip_prefix (lstrip s)) as (w2 & H2 & E2).
  exists w1, w2. repeat split; auto. unfold strip. now rewrite <- E2.
Qed.

Lemma strip_nil_iff s : strip s = [] <-> all_ws s.
Proof.
  split.
  - intros H. destruct (strip_decomp s) as (w1 & w2 & H1 & H2 & E).
    rewrite H in E. cbn in E. rewrite E. apply Forall_app; auto.
  - intros H. unfold strip. rewrite lstrip_ws by auto. reflexivity.
Qed.

Lemma is_blank_iff s : is_blank s = true <-> all_ws s.
Proof.
  rewrite <- strip_nil_iff. unfold is_blank. destruct (strip s); split; congruence.
Qed.

Lemma is_blank_false_iff s : is_blank s = false <-> exists c, In c s /\ is_ws c = false.
Proof.
  split.
  - intros H. assert (~ all_ws s) as N. { intros A. apply is_blank_iff in A. congruence. }
    clear H. induction s as [|c s IH]; [exfalso; apply N; constructor|].
    destruct (is_ws c) eqn:E.
    + destruct IH as (d & Hd & Ed).
      { intros A. apply N. now constructor. }
      exists d. split; auto. now right.
    + exists c. split; auto. now left.
  - intros (c & Hc & E). destruct (is_blank s) eqn:B; auto.
    apply is_blank_iff in B. unfold all_ws in B. rewrite Forall_forall in B.
    apply B in Hc. congruence.
Qed.

Lemma is_blank_spaces n : is_blank (spaces n) = true.
Proof. apply is_blank_iff, spaces_ws. Qed.

Lemma strip_padded w1 s w2 :
  all_ws w1 -> all_ws w2 -> no_ws s -> strip (w1 ++ s ++ w2) = s.
Proof.
  intros H1 H2 H. unfold strip. rewrite lstrip_ws_app by auto.
  destruct s as [|c s].
  - cbn [app]. rewrite lstrip_ws by auto. reflexivity.
  - inversion H; subst. rewrite <- app_comm_cons, lstrip_no by auto.
    rewrite app_comm_cons, rstrip_ws_app by auto. apply rstrip_id. now constructor.
Qed.

Lemma strip_rjust n s : no_ws s -> strip (rjust n s) = s.
Proof.
  intros H. unfold rjust.
  replace (spaces (n - length s) ++ s) with (spaces (n - length s) ++ s ++ []) by now rewrite app_nil_r.
  apply strip_padded; auto using spaces_ws. constructor.
Qed.

Lemma strip_no_ws s : no_ws s -> strip s = s.
Proof. intros H. unfold strip. rewrite lstrip_id by auto. now apply rstrip_id. Qed.

(** ** Digits *)

Lemma digit_chr_val d : 0 <= d < 10 -> digit_val (digit_chr d) = d /\ is_digit (digit_chr d) = true.
Proof.
  intros H.
  assert (d = 0 \/ d = 1 \/ d = 2 \/ d = 3 \/ d = 4 \/ d = 5 \/ d = 6 \/ d = 7 \/ d = 8 \/ d = 9) as D by lia.
  repeat (destruct D as [-> | D]; [split; reflexivity|]). subst; split; reflexivity.
Qed.

Lemma is_digit_code c : is_digit c = true <-> (48 <= code c <= 57)%nat.
Proof. unfold is_digit. rewrite andb_true_iff, !Nat.leb_le. tauto. Qed.

Lemma is_digit_range c : is_digit c = true -> 0 <= digit_val c < 10.
Proof. rewrite is_digit_code. unfold digit_val. lia. Qed.

Lemma is_digit_no_ws c : is_digit c = true -> is_ws c = false.
Proof.
  rewrite is_digit_code. intros H. unfold is_ws.
  repeat rewrite (proj2 (Nat.leb_gt _ _)) by lia.
  repeat rewrite orb_false_iff; repeat split.
  - apply andb_false_iff. right. apply Nat.leb_gt. lia.
  - apply andb_false_iff. right. apply Nat.leb_gt. lia.
  - apply Nat.eqb_neq. lia.
  - apply Nat.eqb_neq. lia.
Qed.

Lemma is_digit_not c d : is_digit c = true -> (code d < 48 \/ code d > 57)%nat -> chr_eqb c d = false.
Proof.
  rewrite is_digit_code. intros H1 H2. destruct (chr_eqb c d) eqn:E; auto.
  apply chr_eqb_eq in E. subst. lia.
Qed.

Definition all_digits (s : str) : Prop := Forall (fun c => is_digit c = true) s.

Lemma all_digits_no_ws s : all_digits s -> no_ws s.
Proof. apply Forall_impl. apply is_digit_no_ws. Qed.

Lemma digits_fixed_length w n : length (digits_fixed w n) = w.
Proof. revert n; induction w; intros; cbn; auto. rewrite app_length, IHw. cbn. lia. Qed.

Lemma digits_fixed_digits w n : all_digits (digits_fixed w n).
Proof.
  revert n; induction w; intros; cbn; [constructor|].
  apply Forall_app. split; [apply IHw|]. constructor; [|constructor].
  apply digit_chr_val. apply Z.mod_pos_bound. lia.
Qed.

Lemma digits_val_acc_app s t acc :
  digits_val_acc (s ++ t) acc =
  match digits_val_acc s acc with Some v => digits_val_acc t v | None => None end.
Proof.
  revert acc; induction s as [|c s IH]; intros; cbn; auto.
  destruct (is_digit c); auto.
Qed.

Lemma digits_fixed_val_acc w n acc : 0 <= n ->
  digits_val_acc (digits_fixed w n) acc = Some (acc * 10 ^ Z.of_nat w + n mod 10 ^ Z.of_nat w).
Proof.
  revert n acc; induction w; intros n acc Hn.
  - cbn. rewrite Z.mod_1_r. f_equal. lia.
  - cbn [digits_fixed]. rewrite digits_val_acc_app, IHw by (apply Z.div_pos; lia).
    cbn [digits_val_acc].
    destruct (digit_chr_val (n mod 10)) as [-> ->]; [apply Z.mod_pos_bound; lia|].
    f_equal. rewrite Nat2Z.inj_succ, Z.pow_succ_r by lia.
    set (P := 10 ^ Z.of_nat w). assert (0 < P) by (apply Z.pow_pos_nonneg; lia).
    rewrite (Z.rem_mul_r n 10 P) by lia. ring.
Qed.

Lemma digits_fixed_val w n : 0 <= n < 10 ^ Z.of_nat w ->
  digits_val_acc (digits_fixed w n) 0 = Some n.
Proof.
  intros H. rewrite digits_fixed_val_acc by lia. rewrite Z.mod_small by lia. reflexivity.
Qed.

Lemma ndigits_aux_pos f n : (1 <= ndigits_aux f n)%nat.
Proof. destruct f; cbn; [lia|]. destruct (n <? 10); lia. Qed.

Lemma ndigits_aux_spec f n : 0 <= n -> n < 2 ^ Z.of_nat f ->
  n < 10 ^ Z.of_nat (ndigits_aux f n) /\
  (ndigits_aux f n = 1%nat \/ 10 ^ (Z.of_nat (ndigits_aux f n) - 1) <= n).
Proof.
  revert n; induction f; intros n Hn Hf.
  - change (2 ^ Z.of_nat 0) with 1 in Hf. cbn. split; [lia|now left].
  - cbn [ndigits_aux]. destruct (Z.ltb_spec n 10).
    + split; [change (10 ^ Z.of_nat 1) with 10; lia|now left].
    + destruct (IHf (n / 10)) as [A B].
      * apply Z.div_pos; lia.
      * rewrite Nat2Z.inj_succ, Z.pow_succ_r in Hf by lia.
        apply Z.div_lt_upper_bound; [lia|]. assert (0 < 2 ^ Z.of_nat f) by (apply Z.pow_pos_nonneg; lia). lia.
      * set (k := ndigits_aux f (n / 10)) in *.
        assert (1 <= k)%nat by apply ndigits_aux_pos.
        split.
        -- rewrite Nat2Z.inj_succ, Z.pow_succ_r by lia.
           pose proof (Z.mul_div_le n 10 ltac:(lia)). pose proof (Z.mod_pos_bound n 10 ltac:(lia)).
           pose proof (Z.div_mod n 10 ltac:(lia)). lia.
        -- right. replace (Z.of_nat (S k) - 1) with (Z.succ (Z.of_nat k - 1)) by lia.
           rewrite Z.pow_succ_r by lia.
           destruct B as [B|B].
           ++ rewrite B. cbn. lia.
           ++ pose proof (Z.mul_div_le n 10 ltac:(lia)). lia.
Qed.

Lemma ndigits_spec n : 0 <= n ->
  n < 10 ^ Z.of_nat (ndigits n) /\ (ndigits n = 1%nat \/ 10 ^ (Z.of_nat (ndigits n) - 1) <= n).
Proof.
  intros H. apply ndigits_aux_spec; auto.
  rewrite Nat2Z.inj_succ, Z2Nat.id by apply Z.log2_nonneg.
  destruct (Z.eq_dec n 0) as [->|N]; [reflexivity|].
  apply Z.log2_spec. lia.
Qed.

Lemma ndigits_pos n : (1 <= ndigits n)%nat.
Proof. apply ndigits_aux_pos. Qed.

Lemma ndigits_le n w : 0 <= n -> (1 <= w)%nat -> n < 10 ^ Z.of_nat w -> (ndigits n <= w)%nat.
Proof.
  intros H Hw L. destruct (ndigits_spec n H) as [_ [E|E]]; [lia|].
  destruct (Nat.le_gt_cases (ndigits n) w); auto.
  assert (10 ^ Z.of_nat w <= 10 ^ (Z.of_nat (ndigits n) - 1)) by (apply Z.pow_le_mono_r; lia). lia.
Qed.

Lemma ndigits_le_inv n w : 0 <= n -> (ndigits n <= w)%nat -> n < 10 ^ Z.of_nat w.
Proof.
  intros H L. destruct (ndigits_spec n H) as [A _].
  assert (10 ^ Z.of_nat (ndigits n) <= 10 ^ Z.of_nat w) by (apply Z.pow_le_mono_r; lia). lia.
Qed.

Lemma length_str_of_nonneg n : length (str_of_nonneg n) = ndigits n.
Proof. apply digits_fixed_length. Qed.

Lemma str_of_nonneg_digits n : all_digits (str_of_nonneg n).
Proof. apply digits_fixed_digits. Qed.

Lemma str_of_nonneg_val n : 0 <= n -> digits_val_acc (str_of_nonneg n) 0 = Some n.
Proof. intros H. apply digits_fixed_val. split; auto. now apply ndigits_spec. Qed.

Lemma str_of_nonneg_nonnil n : str_of_nonneg n <> [].
Proof.
  intros E. apply (f_equal (@length ascii)) in E. rewrite length_str_of_nonneg in E.
  pose proof (ndigits_pos n). change (length (@nil ascii)) with 0%nat in E. lia.
Qed.

Lemma str_of_Z_no_ws n : no_ws (str_of_Z n).
Proof.
  unfold str_of_Z. destruct (n <? 0).
  - constructor; [reflexivity|]. apply all_digits_no_ws, str_of_nonneg_digits.
  - apply all_digits_no_ws, str_of_nonneg_digits.
Qed.

Lemma str_of_Z_nonnil n : str_of_Z n <> [].
Proof. unfold str_of_Z. destruct (n <? 0); [discriminate|apply str_of_nonneg_nonnil]. Qed.

Lemma us_ok_digits b s : all_digits s -> us_ok_from b s = true.
Proof.
  intros H; revert b; induction H; intros b; cbn; auto.
  rewrite (is_digit_not x "_"%char) by (auto; vm_compute; lia). apply IHForall.
Qed.

Lemma remove_chr_digits c s : all_digits s -> (code c < 48 \/ code c > 57)%nat -> remove_chr c s = s.
Proof.
  intros H Hc. unfold remove_chr. induction H; cbn; auto.
  rewrite (is_digit_not x c) by auto. cbn. now f_equal.
Qed.

Lemma take_sign_digits s : all_digits s -> take_sign s = (false, s).
Proof.
  intros H. destruct H; [reflexivity|]. cbn.
  rewrite (is_digit_not x "-"%char), (is_digit_not x "+"%char); auto; vm_compute; lia.
Qed.

Lemma int_of_str_unsigned s v : all_digits s -> s <> [] ->
  digits_val_acc s 0 = Some v -> int_of_str s = Some v.
Proof.
  intros D N V. unfold int_of_str.
  rewrite strip_no_ws by now apply all_digits_no_ws.
  rewrite take_sign_digits by auto. unfold us_ok. rewrite us_ok_digits by auto.
  cbn [negb]. unfold drop_us. rewrite remove_chr_digits by (auto; vm_compute; lia).
  destruct s; [congruence|]. now rewrite V.
Qed.

Lemma int_of_str_neg s v : all_digits s -> s <> [] ->
  digits_val_acc s 0 = Some v -> int_of_str ("-"%char :: s) = Some (- v).
Proof.
  intros D N V. unfold int_of_str.
  rewrite strip_no_ws by (constructor; [reflexivity|now apply all_digits_no_ws]).
  cbn [take_sign]. rewrite chr_eqb_refl. unfold us_ok. rewrite us_ok_digits by auto.
  cbn [negb]. unfold drop_us. rewrite remove_chr_digits by (auto; vm_compute; lia).
  destruct s; [congruence|]. now rewrite V.
Qed.

Lemma int_of_str_of_Z n : int_of_str (str_of_Z n) = Some n.
Proof.
  unfold str_of_Z. destruct (Z.ltb_spec n 0).
  - rewrite (int_of_str_neg _ (- n)); [f_equal; lia|apply str_of_nonneg_digits|apply str_of_nonneg_nonnil|].
    apply str_of_nonneg_val. lia.
  - apply int_of_str_unsigned; [apply str_of_nonneg_digits|apply str_of_nonneg_nonnil|].
    now apply str_of_nonneg_val.
Qed.

Lemma int_of_str_strip s : int_of_str (strip s) = int_of_str s.
Proof.
  assert (strip (strip s) = strip s) as E.
  { unfold strip at 2 3. set (u := lstrip s).
    assert (Hu : u = [] \/ exists c r, u = c :: r /\ is_ws c = false).
    { unfold u. clear u. induction s as [|c s IH]; cbn; auto.
      destruct (is_ws c) eqn:E; auto. right. eauto. }
    destruct Hu as [->|(c & r & -> & Hc)]; [reflexivity|].
    destruct (rstrip_prefix (c :: r)) as (w & Hw & E).
    assert (Hr : exists r', rstrip (c :: r) = c :: r').
    { destruct (rstrip (c :: r)) as [|d r'] eqn:R.
      - cbn in E. subst w. inversion Hw; congruence.
      - cbn in E. injection E as -> _. eauto. }
    destruct Hr as (r' & Hr). rewrite Hr. unfold strip. rewrite lstrip_no by auto.
    rewrite <- Hr. unfold rstrip. rewrite rev_involutive. f_equal.
    set (v := rev (c :: r)). clear. induction v as [|d v IH]; cbn; auto.
    destruct (is_ws d) eqn:E; auto. cbn. now rewrite E. }
  unfold int_of_str. now rewrite E.
Qed.

Lemma int_of_str_rjust w s : no_ws s -> int_of_str (rjust w s) = int_of_str s.
Proof. intros H. rewrite <- int_of_str_strip, strip_rjust by auto. reflexivity. Qed.

Lemma int_of_str_rjust_Z w n : int_of_str (rjust w (str_of_Z n)) = Some n.
Proof. rewrite int_of_str_rjust by apply str_of_Z_no_ws. apply int_of_str_of_Z. Qed.

Lemma is_blank_rjust w s : no_ws s -> s <> [] -> is_blank (rjust w s) = false.
Proof. intros H N. unfold is_blank. rewrite strip_rjust by auto. destruct s; congruence. Qed.

(** ** Which integers fit into a field *)

Definition fits (w : nat) (n : Z) : Prop := (length (str_of_Z n) <= w)%nat.

Lemma fits_iff w n : (1 <= w)%nat ->
  fits w n <-> - 10 ^ (Z.of_nat w - 1) < n < 10 ^ Z.of_nat w.
Proof.
  intros Hw. unfold fits, str_of_Z. destruct (Z.ltb_spec n 0); cbn [length];
    rewrite length_str_of_nonneg.
  - split; intros L.
    + assert (ndigits (- n) <= w - 1)%nat as L' by lia.
      apply ndigits_le_inv in L'; [|lia].
      replace (Z.of_nat (w - 1)) with (Z.of_nat w - 1) in L' by lia.
      assert (0 < 10 ^ Z.of_nat w) by (apply Z.pow_pos_nonneg; lia). lia.
    + assert (1 <= w - 1)%nat.
      { destruct (Nat.eq_dec w 1) as [->|]; [|lia]. cbn in L. lia. }
      assert (ndigits (- n) <= w - 1)%nat; [|lia].
      apply ndigits_le; [lia|lia|].
      replace (Z.of_nat (w - 1)) with (Z.of_nat w - 1) by lia. lia.
  - assert (0 < 10 ^ (Z.of_nat w - 1)) by (apply Z.pow_pos_nonneg; lia).
    split; intros L.
    + apply ndigits_le_inv in L; [|lia]. lia.
    + apply ndigits_le; lia.
Qed.
