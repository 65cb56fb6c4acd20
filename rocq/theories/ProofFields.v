(** Integer fields and control columns. *)
From Coq Require Import Ascii String ZArith Bool Lia List.
From Coq Require Import Floats.SpecFloat.
From Verif Require Import PyBase ProofPyBase PyFloat ModelFortran ModelRecords SpecFields.
Import ListNotations.
Open Scope Z_scope.

Lemma blank_iff s : is_blank s = true <-> blank s.
Proof. rewrite is_blank_iff. unfold all_ws, blank. now rewrite Forall_forall. Qed.
Lemma blank_all_ws s : blank s <-> all_ws s.
Proof. unfold all_ws, blank. now rewrite Forall_forall. Qed.

Lemma in_field_fits w n : (1 <= w)%nat -> in_field w n <-> fits w n.
Proof. intros H. unfold in_field. now rewrite fits_iff. Qed.

(** ** Text of integers *)

Lemma digits_val_acc_fold s acc : all_digits s ->
  digits_val_acc s acc = Some (fold_left (fun a c => 10 * a + digit_val c) s acc).
Proof.
  intros H; revert acc; induction H as [|c s Hc H IH]; intros acc; cbn; auto.
  now rewrite Hc.
Qed.

Lemma digits_val_acc_digits s acc v : digits_val_acc s acc = Some v -> all_digits s.
Proof.
  revert acc; induction s as [|c s IH]; intros acc H; [constructor|]. cbn in H.
  destruct (is_digit c) eqn:E; [|discriminate]. constructor; auto. eapply IH; eauto.
Qed.

Lemma digits_val_acc_bound s acc v : 0 <= acc -> digits_val_acc s acc = Some v ->
  0 <= v < (acc + 1) * 10 ^ Z.of_nat (length s).
Proof.
  revert acc; induction s as [|c s IH]; intros acc Ha H.
  - cbn [digits_val_acc] in H. inversion H; subst.
    change (Z.of_nat (length (@nil ascii))) with 0. rewrite Z.pow_0_r. lia.
  - cbn [digits_val_acc] in H. destruct (is_digit c) eqn:E; [|discriminate].
    apply is_digit_range in E. apply IH in H; [|lia].
    change (length (c :: s)) with (S (length s)).
    rewrite Nat2Z.inj_succ, Z.pow_succ_r by lia.
    assert (0 < 10 ^ Z.of_nat (length s)) by (apply Z.pow_pos_nonneg; lia). nia.
Qed.

Lemma length_filter_le {A} (f : A -> bool) l : (length (filter f l) <= length l)%nat.
Proof. induction l; cbn; auto. destruct (f a); cbn; lia. Qed.

Lemma take_sign_inv s neg d : take_sign s = (neg, d) ->
  (neg = true /\ s = "-"%char :: d) \/ (neg = false /\ (s = "+"%char :: d \/ s = d)).
Proof.
  unfold take_sign. destruct s as [|c r]; [intros H; inversion H; auto|].
  destruct (chr_eqb c "-"%char) eqn:E1.
  { apply chr_eqb_eq in E1. intros H; inversion H; subst; auto. }
  destruct (chr_eqb c "+"%char) eqn:E2.
  { apply chr_eqb_eq in E2. intros H; inversion H; subst; auto. }
  intros H; inversion H; subst; auto.
Qed.

Lemma length_strip s : (length (strip s) <= length s)%nat.
Proof.
  destruct (strip_decomp s) as (a & b & _ & _ & E). rewrite E at 2. rewrite !app_length. lia.
Qed.

Lemma int_of_str_fits s v : int_of_str s = Some v -> fits (length s) v.
Proof.
  unfold int_of_str. destruct (take_sign (strip s)) as [neg d] eqn:E.
  destruct (us_ok d); [|discriminate]. cbn [negb].
  destruct (drop_us d) as [|c0 d'] eqn:Ed; [discriminate|].
  destruct (digits_val_acc (c0 :: d') 0) as [v'|] eqn:V; [|discriminate].
  intros H. inversion H; subst; clear H.
  pose proof (digits_val_acc_bound _ 0 v' ltac:(lia) V) as B. rewrite Z.add_0_l, Z.mul_1_l in B.
  assert (L : (length (c0 :: d') <= length d)%nat) by (rewrite <- Ed; apply length_filter_le).
  pose proof (length_strip s) as LS.
  apply take_sign_inv in E.
  assert (L0 : (1 <= length (c0 :: d'))%nat) by (cbn; lia).
  destruct E as [[-> E]|[-> E]].
  - rewrite E in LS. change (length ("-"%char :: d)) with (S (length d)) in LS.
    apply fits_iff; [lia|].
    assert (10 ^ Z.of_nat (length (c0 :: d')) <= 10 ^ (Z.of_nat (length s) - 1))
      by (apply Z.pow_le_mono_r; lia).
    assert (0 < 10 ^ Z.of_nat (length s)) by (apply Z.pow_pos_nonneg; lia). lia.
  - assert (length d <= length s)%nat by (destruct E as [E|E]; rewrite E in LS; cbn in LS; lia).
    apply fits_iff; [lia|].
    assert (10 ^ Z.of_nat (length (c0 :: d')) <= 10 ^ Z.of_nat (length s))
      by (apply Z.pow_le_mono_r; lia).
    assert (0 < 10 ^ (Z.of_nat (length s) - 1)) by (apply Z.pow_pos_nonneg; lia). lia.
Qed.

Lemma fits_mono w w' n : (w <= w')%nat -> fits w n -> fits w' n.
Proof. unfold fits. lia. Qed.

Lemma slice_le {A} (p f t : list A) a w :
  a = length p -> (length f <= w)%nat -> (w <= length f + length t)%nat ->
  slice a (a + w) (p ++ f ++ t) = f ++ firstn (w - length f) t.
Proof.
  intros -> H1 H2. unfold slice. rewrite skipn_app, skipn_all, Nat.sub_diag. cbn.
  replace (_ + _ - _)%nat with w by lia. rewrite firstn_app.
  rewrite (firstn_all2 f) by lia. reflexivity.
Qed.

Lemma slice_prefix {A} (p f t : list A) a w :
  a = length p -> (w <= length f)%nat -> slice a (a + w) (p ++ f ++ t) = firstn w f.
Proof.
  intros -> H. unfold slice. rewrite skipn_app, skipn_all, Nat.sub_diag. cbn.
  replace (_ + _ - _)%nat with w by lia. rewrite firstn_app.
  replace (w - length f)%nat with 0%nat by lia. cbn. apply app_nil_r.
Qed.

Lemma length_int_field w n : fits w n -> length (int_field w n) = w.
Proof. intros H. unfold int_field. now apply length_rjust_le. Qed.

Lemma int_field_wide w n : ~ fits w n -> int_field w n = str_of_Z n.
Proof. intros H. unfold int_field. apply rjust_id. unfold fits in H. lia. Qed.

(** ** [read_fort_int] *)

Lemma read_fort_int_field w n : read_fort_int (int_field w n) = Ok n.
Proof.
  unfold read_fort_int, int_field. rewrite is_blank_rjust by (auto using str_of_Z_no_ws, str_of_Z_nonnil).
  now rewrite int_of_str_rjust_Z.
Qed.

Lemma read_fort_int_fits s v : (1 <= length s)%nat -> read_fort_int s = Ok v -> fits (length s) v.
Proof.
  intros L. unfold read_fort_int. destruct (is_blank s).
  - intros H; inversion H; subst. unfold fits. vm_compute. destruct s; cbn in *; lia.
  - destruct (int_of_str s) eqn:E; [|discriminate]. intros H; inversion H; subst.
    now apply int_of_str_fits.
Qed.

Lemma read_int_field_iff w pre suf n : (1 <= w)%nat ->
  read_fort_int (slice (length pre) (length pre + w) (pre ++ int_field w n ++ suf)) = Ok n
  <-> in_field w n.
Proof.
  intros Hw. rewrite in_field_fits by auto.
  destruct (Nat.le_gt_cases (length (str_of_Z n)) w) as [L|L].
  - assert (fits w n) as F by exact L.
    pose proof (length_int_field w n F) as LE.
    rewrite (slice_at pre (int_field w n) suf); [|reflexivity|now rewrite LE].
    rewrite read_fort_int_field. tauto.
  - assert (~ fits w n) as F by (unfold fits; lia). split; [|contradiction].
    rewrite int_field_wide by auto. rewrite slice_prefix by (auto; lia).
    intros H. exfalso. apply F. apply read_fort_int_fits in H.
    + rewrite firstn_length_le in H by lia. exact H.
    + rewrite firstn_length_le; lia.
Qed.

(** ** Control columns *)

Lemma ctrl_int_rjust w n : ctrl_int (rjust w (str_of_Z n)) = Ok n.
Proof.
  unfold ctrl_int. rewrite strip_rjust by apply str_of_Z_no_ws.
  pose proof (str_of_Z_nonnil n). destruct (str_of_Z n) eqn:E; [contradiction|].
  rewrite <- E, int_of_str_of_Z. reflexivity.
Qed.

Lemma ctrl_int_fits s v : (1 <= length s)%nat -> ctrl_int s = Ok v -> fits (length s) v.
Proof.
  intros L. unfold ctrl_int. destruct (strip s) as [|c0 t] eqn:E.
  - intros H; inversion H; subst. unfold fits. vm_compute. destruct s; cbn in *; lia.
  - destruct (int_of_str (c0 :: t)) eqn:I; [|discriminate]. intros H; inversion H; subst.
    apply int_of_str_fits in I. eapply fits_mono; [|exact I]. rewrite <- E. apply length_strip.
Qed.

(** a number written into a column at some position is read back iff it fits *)
Lemma ctrl_col_iff w p q n a : a = length p -> (1 <= w)%nat ->
  ctrl_int (slice a (a + w) (p ++ rjust w (str_of_Z n) ++ q)) = Ok n <-> fits w n.
Proof.
  intros -> Hw. destruct (Nat.le_gt_cases (length (str_of_Z n)) w) as [L|L].
  - assert (fits w n) as F by exact L.
    assert (LE : length (rjust w (str_of_Z n)) = w) by (apply length_rjust_le; auto).
    rewrite (slice_at p (rjust w (str_of_Z n)) q); [|reflexivity|now rewrite LE].
    rewrite ctrl_int_rjust. tauto.
  - assert (~ fits w n) as F by (unfold fits; lia). split; [|contradiction].
    rewrite rjust_id by lia. rewrite slice_prefix by (auto; lia).
    intros H. exfalso. apply F. apply ctrl_int_fits in H.
    + rewrite firstn_length_le in H by lia. exact H.
    + rewrite firstn_length_le; lia.
Qed.

Lemma ctrl_fits_iff c : ctrl_fits c <-> fits 4 (MAT c) /\ fits 2 (MF c) /\ fits 3 (MT c).
Proof.
  unfold ctrl_fits. rewrite !fits_iff by lia.
  change (10 ^ (Z.of_nat 4 - 1)) with 1000. change (10 ^ Z.of_nat 4) with 10000.
  change (10 ^ (Z.of_nat 2 - 1)) with 10. change (10 ^ Z.of_nat 2) with 100.
  change (10 ^ (Z.of_nat 3 - 1)) with 100. change (10 ^ Z.of_nat 3) with 1000. tauto.
Qed.

Lemma length_write_ctrl c : ctrl_fits c -> length (write_ctrl c) = 9%nat.
Proof.
  rewrite ctrl_fits_iff. intros (A & B & C). unfold write_ctrl.
  rewrite !app_length, !length_rjust_le by assumption. reflexivity.
Qed.

Lemma length_write_ctrl_ge c : (9 <= length (write_ctrl c))%nat.
Proof. unfold write_ctrl. rewrite !app_length, !length_rjust. lia. Qed.

Lemma length_write_ctrl_iff c : length (write_ctrl c) = 9%nat <-> ctrl_fits c.
Proof.
  rewrite ctrl_fits_iff. unfold write_ctrl, fits. rewrite !app_length, !length_rjust. lia.
Qed.

Lemma read_ctrl_write ro pre suf c : length pre = (6 * r_width ro)%nat -> ctrl_fits c ->
  read_ctrl ro (pre ++ write_ctrl c ++ suf) = Ok c.
Proof.
  intros L F. apply ctrl_fits_iff in F as (A & B & C).
  unfold read_ctrl, write_ctrl. rewrite <- L.
  assert (LA : length (rjust 4 (str_of_Z (MAT c))) = 4%nat) by (apply length_rjust_le; auto).
  assert (LB : length (rjust 2 (str_of_Z (MF c))) = 2%nat) by (apply length_rjust_le; auto).
  set (x := rjust 4 (str_of_Z (MAT c))) in *. set (y := rjust 2 (str_of_Z (MF c))) in *.
  set (z := rjust 3 (str_of_Z (MT c))) in *.
  assert (E1 : ctrl_int (slice (length pre) (length pre + 4) (pre ++ (x ++ y ++ z) ++ suf)) = Ok (MAT c)).
  { rewrite <- !app_assoc. apply ctrl_col_iff; [reflexivity|lia|assumption]. }
  assert (E2 : ctrl_int (slice (length pre + 4) (length pre + 6) (pre ++ (x ++ y ++ z) ++ suf)) = Ok (MF c)).
  { replace (pre ++ (x ++ y ++ z) ++ suf) with ((pre ++ x) ++ y ++ (z ++ suf)) by (now rewrite <- !app_assoc).
    replace (length pre + 6)%nat with (length pre + 4 + 2)%nat by lia.
    apply ctrl_col_iff; [rewrite ?app_length; lia|lia|assumption]. }
  assert (E3 : ctrl_int (slice (length pre + 6) (length pre + 9) (pre ++ (x ++ y ++ z) ++ suf)) = Ok (MT c)).
  { replace (pre ++ (x ++ y ++ z) ++ suf) with ((pre ++ x ++ y) ++ z ++ suf) by (now rewrite <- !app_assoc).
    replace (length pre + 9)%nat with (length pre + 6 + 3)%nat by lia.
    apply ctrl_col_iff; [rewrite ?app_length; lia|lia|assumption]. }
  rewrite E1, E2, E3. cbn. now destruct c.
Qed.

Lemma read_ctrl_write_iff ro pre suf c : length pre = (6 * r_width ro)%nat ->
  read_ctrl ro (pre ++ write_ctrl c ++ suf) = Ok c <-> ctrl_fits c.
Proof.
  intros L. split; [|now apply read_ctrl_write].
  intros H. apply ctrl_fits_iff. unfold read_ctrl, write_ctrl in H. rewrite <- L in H.
  set (x := rjust 4 (str_of_Z (MAT c))) in *. set (y := rjust 2 (str_of_Z (MF c))) in *.
  set (z := rjust 3 (str_of_Z (MT c))) in *.
  destruct (ctrl_int (slice (length pre) (length pre + 4) (pre ++ (x ++ y ++ z) ++ suf))) as [a|] eqn:E1; [|discriminate].
  destruct (ctrl_int (slice (length pre + 4) (length pre + 6) (pre ++ (x ++ y ++ z) ++ suf))) as [b|] eqn:E2; [|discriminate].
  destruct (ctrl_int (slice (length pre + 6) (length pre + 9) (pre ++ (x ++ y ++ z) ++ suf))) as [d|] eqn:E3; [|discriminate].
  cbn in H. inversion H as [Hc]. subst c. cbn [MAT MF MT] in *.
  assert (FA : fits 4 a).
  { rewrite <- !app_assoc in E1. apply (proj1 (ctrl_col_iff 4 pre (y ++ z ++ suf) a (length pre) eq_refl ltac:(lia)) E1). }
  assert (LA : length x = 4%nat) by (apply length_rjust_le; auto).
  assert (FB : fits 2 b).
  { replace (pre ++ (x ++ y ++ z) ++ suf) with ((pre ++ x) ++ y ++ (z ++ suf)) in E2 by (now rewrite <- !app_assoc).
    replace (length pre + 6)%nat with (length pre + 4 + 2)%nat in E2 by lia.
    apply (proj1 (ctrl_col_iff 2 (pre ++ x) (z ++ suf) b (length pre + 4) ltac:(rewrite app_length; lia) ltac:(lia)) E2). }
  assert (LB : length y = 2%nat) by (apply length_rjust_le; auto).
  assert (FC : fits 3 d).
  { replace (pre ++ (x ++ y ++ z) ++ suf) with ((pre ++ x ++ y) ++ z ++ suf) in E3 by (now rewrite <- !app_assoc).
    replace (length pre + 9)%nat with (length pre + 6 + 3)%nat in E3 by lia.
    apply (proj1 (ctrl_col_iff 3 (pre ++ x ++ y) suf d (length pre + 6) ltac:(rewrite !app_length; lia) ltac:(lia)) E3). }
  auto.
Qed.

(** ** Grammar of integer fields *)

Lemma digit_group_all g : digit_group g -> all_digits g.
Proof. intros [_ H]. now apply Forall_forall. Qed.

Lemma join_us_split s :
  (us_ok_from false s = true -> all_digits (drop_us s) -> s <> [] ->
     exists gs, gs <> [] /\ Forall digit_group gs /\ s = join_us gs) /\
  (us_ok_from true s = true -> all_digits (drop_us s) ->
     exists ds gs, all_digits ds /\ Forall digit_group gs /\ s = join_us (ds :: gs)).
Proof.
  induction s as [|c s [IH1 IH2]].
  - split; [contradiction|]. intros _ _. exists [], []. repeat split; constructor.
  - assert (DU : chr_eqb c "_"%char = false -> drop_us (c :: s) = c :: drop_us s).
    { intros E. unfold drop_us, remove_chr. cbn. now rewrite E. }
    split.
    + intros U D _. cbn [us_ok_from] in U. destruct (chr_eqb c "_"%char) eqn:E; [discriminate|].
      rewrite DU in D by auto. inversion D as [|? ? Hc D']; subst. rewrite Hc in U.
      destruct (IH2 U D') as (ds & gs & Hd & Hg & ->).
      exists ((c :: ds) :: gs). split; [discriminate|]. split.
      * constructor; auto. split; [discriminate|]. intros x [<-|Hx]; auto.
        unfold all_digits in Hd. rewrite Forall_forall in Hd. auto.
      * destruct gs; reflexivity.
    + intros U D. cbn [us_ok_from] in U. destruct (chr_eqb c "_"%char) eqn:E.
      * apply andb_true_iff in U as [U U2]. apply andb_true_iff in U as [_ U1].
        destruct s as [|d s']; [discriminate|].
        assert (D' : all_digits (drop_us (d :: s'))).
        { unfold drop_us, remove_chr in D. cbn [filter] in D. rewrite E in D. exact D. }
        destruct (IH1 U2 D' ltac:(discriminate)) as (gs & Hn & Hg & Eq).
        exists [], gs. split; [constructor|]. split; auto. apply chr_eqb_eq in E.
        rewrite Eq, E. destruct gs; [contradiction|reflexivity].
      * rewrite DU in D by auto. inversion D as [|? ? Hc D']; subst. rewrite Hc in U.
        destruct (IH2 U D') as (ds & gs & Hd & Hg & ->).
        exists (c :: ds), gs. split; [constructor; auto|]. split; auto. destruct gs; reflexivity.
Qed.

Lemma join_us_cons g gs : gs <> [] -> join_us (g :: gs) = g ++ "_"%char :: join_us gs.
Proof. destruct gs; [contradiction|reflexivity]. Qed.

Lemma us_ok_app_digits b ds s : all_digits ds -> ds <> [] ->
  us_ok_from b (ds ++ s) = us_ok_from true s.
Proof.
  intros H; revert b; induction H as [|c ds Hc H IH]; intros b N; [contradiction|].
  cbn. rewrite (is_digit_not c "_"%char) by (auto; vm_compute; lia). rewrite Hc.
  destruct ds as [|c' ds']; [reflexivity|]. apply IH. discriminate.
Qed.

Lemma join_us_nonnil gs : gs <> [] -> Forall digit_group gs ->
  exists c r, join_us gs = c :: r /\ is_digit c = true.
Proof.
  intros N H. destruct gs as [|g gs]; [contradiction|]. inversion H as [|? ? [G1 G2] _]; subst.
  destruct g as [|c g]; [contradiction|].
  exists c, (match gs with [] => g | _ => g ++ "_"%char :: join_us gs end). split.
  - destruct gs; reflexivity.
  - apply G2. now left.
Qed.

Lemma us_ok_join gs : gs <> [] -> Forall digit_group gs -> us_ok (join_us gs) = true.
Proof.
  unfold us_ok. induction gs as [|g gs IH]; intros N H; [contradiction|].
  inversion H as [|? ? G H']; subst. destruct gs as [|g2 gs].
  - cbn [join_us]. rewrite <- (app_nil_r g). rewrite us_ok_app_digits; [reflexivity|now apply digit_group_all|apply G].
  - rewrite join_us_cons by discriminate.
    rewrite us_ok_app_digits; [|now apply digit_group_all|apply G].
    destruct (join_us_nonnil (g2 :: gs) ltac:(discriminate) H') as (c & r & E & Hc).
    specialize (IH ltac:(discriminate) H'). rewrite E in *.
    cbn [us_ok_from] in *. change (chr_eqb "_" "_") with true. rewrite Hc in *. exact IH.
Qed.

Lemma drop_us_app a b : drop_us (a ++ b) = drop_us a ++ drop_us b.
Proof. apply filter_app. Qed.

Lemma drop_us_join gs : Forall digit_group gs -> drop_us (join_us gs) = concat gs.
Proof.
  induction gs as [|g gs IH]; intros H; [reflexivity|].
  inversion H as [|? ? G H']; subst.
  assert (E : drop_us g = g) by (apply remove_chr_digits; [now apply digit_group_all|vm_compute; lia]).
  destruct gs as [|g2 gs].
  - cbn. now rewrite app_nil_r.
  - rewrite join_us_cons by discriminate. rewrite drop_us_app, E.
    change (concat (g :: g2 :: gs)) with (g ++ concat (g2 :: gs)). f_equal.
    rewrite <- IH by auto. reflexivity.
Qed.

Lemma concat_digits gs : Forall digit_group gs -> all_digits (concat gs).
Proof. induction 1 as [|g gs G H IH]; [constructor|]. apply Forall_app. split; auto. now apply digit_group_all. Qed.

Lemma join_us_no_ws gs : Forall digit_group gs -> no_ws (join_us gs).
Proof.
  induction gs as [|g gs IH]; intros H; [constructor|]. inversion H as [|? ? G H']; subst.
  apply digit_group_all in G. apply all_digits_no_ws in G.
  destruct gs; [exact G|]. rewrite join_us_cons by discriminate. apply Forall_app. split; auto.
  constructor; [reflexivity|]. apply IH; exact H'.
Qed.

Lemma int_of_str_text s v : int_text s v -> int_of_str s = Some v.
Proof.
  intros (w1 & sign & gs & w2 & -> & B1 & B2 & Hs & N & G & ->).
  apply blank_all_ws in B1, B2.
  unfold int_of_str.
  assert (NW : no_ws (sign ++ join_us gs)).
  { apply Forall_app. split; [|now apply join_us_no_ws].
    destruct Hs as [-> | [-> | ->]]; repeat constructor. }
  replace (w1 ++ sign ++ join_us gs ++ w2) with (w1 ++ (sign ++ join_us gs) ++ w2) by now rewrite <- app_assoc.
  rewrite strip_padded by auto.
  assert (TS : take_sign (sign ++ join_us gs) = (str_eqb sign $"-", join_us gs)).
  { destruct (join_us_nonnil gs N G) as (c & r & E & Hc).
    destruct Hs as [-> | [-> | ->]]; try reflexivity. cbn [app]. rewrite E. unfold take_sign.
    rewrite (is_digit_not c "-"%char), (is_digit_not c "+"%char); auto; vm_compute; lia. }
  rewrite TS. rewrite us_ok_join by auto. cbn [negb].
  rewrite drop_us_join by auto.
  pose proof (concat_digits gs G) as D.
  assert (NC : concat gs <> []).
  { destruct gs as [|g gs]; [contradiction|]. inversion G as [|? ? [Hg _] _]; subst.
    destruct g; [contradiction|discriminate]. }
  destruct (concat gs) as [|c0 cs] eqn:E; [contradiction|]. rewrite <- E in *.
  rewrite digits_val_acc_fold by auto. unfold digits_value.
  destruct (str_eqb sign $"-"); f_equal; lia.
Qed.

Lemma int_of_str_text_inv s v : int_of_str s = Some v -> int_text s v.
Proof.
  unfold int_of_str. destruct (take_sign (strip s)) as [neg d] eqn:E.
  destruct (us_ok d) eqn:U; [|discriminate]. cbn [negb].
  destruct (drop_us d) as [|c0 d'] eqn:Ed; [discriminate|].
  destruct (digits_val_acc (c0 :: d') 0) as [v'|] eqn:V; [|discriminate].
  intros H. inversion H; subst; clear H.
  pose proof (digits_val_acc_digits _ _ _ V) as D.
  assert (Nd : d <> []) by (intros ->; discriminate).
  rewrite <- Ed in D.
  destruct (proj1 (join_us_split d) U D Nd) as (gs & N & G & Eg).
  destruct (strip_decomp s) as (w1 & w2 & B1 & B2 & Es).
  assert (VV : v' = digits_value (concat gs)).
  { rewrite <- Ed, Eg, drop_us_join in V by auto. rewrite digits_val_acc_fold in V by now apply concat_digits.
    inversion V. reflexivity. }
  apply blank_all_ws in B1, B2.
  apply take_sign_inv in E.
  destruct E as [[-> E]|[-> [E|E]]].
  - exists w1, $"-", gs, w2. rewrite Es at 1. rewrite E, Eg. repeat split; auto.
    rewrite VV. change (str_eqb $"-" $"-") with true. cbv iota. lia.
  - exists w1, $"+", gs, w2. rewrite Es at 1. rewrite E, Eg. repeat split; auto.
    rewrite VV. change (str_eqb $"+" $"-") with false. cbv iota. lia.
  - exists w1, [], gs, w2. rewrite Es at 1. rewrite E, Eg. repeat split; auto.
    rewrite VV. change (str_eqb [] $"-") with false. cbv iota. lia.
Qed.

Lemma read_fort_int_spec s v :
  read_fort_int s = Ok v <-> (blank s /\ v = 0) \/ (~ blank s /\ int_text s v).
Proof.
  unfold read_fort_int. destruct (is_blank s) eqn:B.
  - apply blank_iff in B. split.
    + intros H; inversion H; auto.
    + intros [[_ ->]|[N _]]; [reflexivity|contradiction].
  - assert (NB : ~ blank s) by (intros X; apply blank_iff in X; congruence).
    split.
    + destruct (int_of_str s) eqn:E; [|discriminate]. intros H; inversion H; subst.
      right. split; auto. now apply int_of_str_text_inv.
    + intros [[X _]|[_ H]]; [contradiction|]. now rewrite (int_of_str_text s v H).
Qed.

Lemma read_fort_int_err s e : read_fort_int s = Err e -> e = InvalidIntegerError.
Proof.
  unfold read_fort_int. destruct (is_blank s); [discriminate|].
  destruct (int_of_str s); [discriminate|]. congruence.
Qed.
