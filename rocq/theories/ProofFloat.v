(** Correct rounding: facts about [rhe], [ulp_exp] and [round64] over the rationals. *)
From Coq Require Import Ascii String ZArith QArith Qabs Qpower Lqa Bool Lia List.
From Coq Require Import Floats.SpecFloat.
From Verif Require Import PyBase ProofPyBase PyFloat.
Import ListNotations.
Open Scope Z_scope.

(** ** Powers as rationals *)

Definition p2 (k : Z) : Q := Qpower 2 k.
Definition p10 (k : Z) : Q := Qpower 10 k.

Lemma p2_pos k : (0 < p2 k)%Q.
Proof. apply Qpower_0_lt. reflexivity. Qed.
Lemma p10_pos k : (0 < p10 k)%Q.
Proof. apply Qpower_0_lt. reflexivity. Qed.

Lemma p2_plus a b : (p2 (a + b) == p2 a * p2 b)%Q.
Proof. apply Qpower_plus. discriminate. Qed.
Lemma p10_plus a b : (p10 (a + b) == p10 a * p10 b)%Q.
Proof. apply Qpower_plus. discriminate. Qed.

Lemma p2_Z k : 0 <= k -> (p2 k == inject_Z (2 ^ k))%Q.
Proof. intros H. symmetry. apply (Zpower_Qpower 2 k H). Qed.
Lemma p10_Z k : 0 <= k -> (p10 k == inject_Z (10 ^ k))%Q.
Proof. intros H. symmetry. apply (Zpower_Qpower 10 k H). Qed.

Lemma p2_opp k : (p2 (- k) * p2 k == 1)%Q.
Proof. rewrite <- p2_plus. replace (- k + k) with 0 by lia. reflexivity. Qed.
Lemma p10_opp k : (p10 (- k) * p10 k == 1)%Q.
Proof. rewrite <- p10_plus. replace (- k + k) with 0 by lia. reflexivity. Qed.

Lemma p2_le a b : a <= b -> (p2 a <= p2 b)%Q.
Proof. intros H. apply Qpower_le_compat_l; [exact H|discriminate]. Qed.
Lemma p2_lt a b : a < b -> (p2 a < p2 b)%Q.
Proof. intros H. apply Qpower_lt_compat_l; [exact H|reflexivity]. Qed.
Lemma p2_lt_inv a b : (p2 a < p2 b)%Q -> a < b.
Proof. intros H. eapply Qpower_lt_compat_l_inv; [exact H|reflexivity]. Qed.
Lemma p10_le a b : a <= b -> (p10 a <= p10 b)%Q.
Proof. intros H. apply Qpower_le_compat_l; [exact H|discriminate]. Qed.
Lemma p10_lt a b : a < b -> (p10 a < p10 b)%Q.
Proof. intros H. apply Qpower_lt_compat_l; [exact H|reflexivity]. Qed.
Lemma p10_lt_inv a b : (p10 a < p10 b)%Q -> a < b.
Proof. intros H. eapply Qpower_lt_compat_l_inv; [exact H|reflexivity]. Qed.

Lemma p2_1 : (p2 1 == 2)%Q. Proof. reflexivity. Qed.
Lemma p2_0 : (p2 0 == 1)%Q. Proof. reflexivity. Qed.
Lemma p10_0 : (p10 0 == 1)%Q. Proof. reflexivity. Qed.
Lemma p10_1 : (p10 1 == 10)%Q. Proof. reflexivity. Qed.

(** ** Fractions *)

Definition frac (n d : Z) : Q := (inject_Z n / inject_Z d)%Q.

Lemma iz_pos d : 0 < d -> (0 < inject_Z d)%Q.
Proof. intros H. change 0%Q with (inject_Z 0). now rewrite <- Zlt_Qlt. Qed.
Lemma iz_nonneg d : 0 <= d -> (0 <= inject_Z d)%Q.
Proof. intros H. change 0%Q with (inject_Z 0). now rewrite <- Zle_Qle. Qed.

Lemma frac_mul n d : 0 < d -> (frac n d * inject_Z d == inject_Z n)%Q.
Proof. intros H. pose proof (iz_pos d H). unfold frac. field. lra. Qed.

Lemma frac_unique n d q : 0 < d -> (q * inject_Z d == inject_Z n)%Q -> (q == frac n d)%Q.
Proof. intros H E. pose proof (iz_pos d H). unfold frac. rewrite <- E. field. lra. Qed.

Lemma frac_pos n d : 0 < n -> 0 < d -> (0 < frac n d)%Q.
Proof. intros Hn Hd. pose proof (iz_pos n Hn). pose proof (iz_pos d Hd).
  unfold frac. apply Qlt_shift_div_l; lra. Qed.

Lemma frac_nonneg n d : 0 <= n -> 0 < d -> (0 <= frac n d)%Q.
Proof. intros Hn Hd. pose proof (iz_nonneg n Hn). pose proof (iz_pos d Hd).
  unfold frac. apply Qle_shift_div_l; lra. Qed.

Lemma frac_lt n d x : 0 < d -> (frac n d < x)%Q <-> (inject_Z n < x * inject_Z d)%Q.
Proof.
  intros Hd. pose proof (iz_pos d Hd) as P. split; intros H.
  - rewrite <- (frac_mul n d Hd). apply Qmult_lt_r; auto.
  - unfold frac. apply Qlt_shift_div_r; auto.
Qed.
Lemma frac_le n d x : 0 < d -> (frac n d <= x)%Q <-> (inject_Z n <= x * inject_Z d)%Q.
Proof.
  intros Hd. pose proof (iz_pos d Hd) as P. split; intros H.
  - rewrite <- (frac_mul n d Hd). apply Qmult_le_r; auto.
  - unfold frac. apply Qle_shift_div_r; auto.
Qed.
Lemma le_frac n d x : 0 < d -> (x <= frac n d)%Q <-> (x * inject_Z d <= inject_Z n)%Q.
Proof.
  intros Hd. pose proof (iz_pos d Hd) as P. split; intros H.
  - rewrite <- (frac_mul n d Hd). apply Qmult_le_r; auto.
  - unfold frac. apply Qle_shift_div_l; auto.
Qed.

Lemma frac_cross n1 d1 n2 d2 : 0 < d1 -> 0 < d2 -> n1 * d2 = n2 * d1 -> (frac n1 d1 == frac n2 d2)%Q.
Proof.
  intros H1 H2 E. pose proof (iz_pos _ H1). pose proof (iz_pos _ H2).
  apply (f_equal inject_Z) in E. rewrite !inject_Z_mult in E.
  unfold frac. apply Qmult_inj_r with (z := (inject_Z d1 * inject_Z d2)%Q).
  - intros Z0. assert (0 < inject_Z d1 * inject_Z d2)%Q by (apply Qmult_lt_0_compat; auto). lra.
  - transitivity (inject_Z n1 * inject_Z d2)%Q; [field; lra|]. rewrite E. field. lra.
Qed.

Lemma frac_lt_cross n1 d1 n2 d2 : 0 < d1 -> 0 < d2 ->
  (frac n1 d1 < frac n2 d2)%Q <-> n1 * d2 < n2 * d1.
Proof.
  intros H1 H2. rewrite frac_lt by auto.
  assert (frac n2 d2 * inject_Z d1 == frac (n2 * d1) d2)%Q as ->.
  { unfold frac. rewrite inject_Z_mult. pose proof (iz_pos _ H2). field. lra. }
  unfold frac. pose proof (iz_pos _ H2) as P. split; intros H.
  - apply (Qmult_lt_r _ _ _ P) in H. unfold Qdiv in H. rewrite <- Qmult_assoc in H.
    rewrite (Qmult_comm (/ _)) in H. rewrite Qmult_inv_r in H by lra.
    rewrite Qmult_1_r, <- inject_Z_mult in H. now rewrite <- Zlt_Qlt in H.
  - apply Qlt_shift_div_l; auto. rewrite <- inject_Z_mult. now rewrite <- Zlt_Qlt.
Qed.
Lemma frac_le_cross n1 d1 n2 d2 : 0 < d1 -> 0 < d2 ->
  (frac n1 d1 <= frac n2 d2)%Q <-> n1 * d2 <= n2 * d1.
Proof.
  intros H1 H2. pose proof (frac_lt_cross n2 d2 n1 d1 H2 H1) as X.
  destruct X as [X1 X2]. split; intros H.
  - destruct (Z.le_gt_cases (n1 * d2) (n2 * d1)) as [L|L]; auto.
    apply X2 in L. lra.
  - apply Qnot_lt_le. intros L. apply X1 in L. lia.
Qed.
Lemma frac_eq_cross n1 d1 n2 d2 : 0 < d1 -> 0 < d2 ->
  (frac n1 d1 == frac n2 d2)%Q <-> n1 * d2 = n2 * d1.
Proof.
  intros H1 H2. split; [|now apply frac_cross].
  intros E. assert (frac n1 d1 <= frac n2 d2)%Q as A by lra.
  assert (frac n2 d2 <= frac n1 d1)%Q as B by lra.
  apply (proj1 (frac_le_cross _ _ _ _ H1 H2)) in A.
  apply (proj1 (frac_le_cross _ _ _ _ H2 H1)) in B. lia.
Qed.

(** ** Nearest integer *)

Lemma rhe_spec n d : 0 < d -> 2 * Z.abs (n - d * rhe n d) <= d.
Proof.
  intros H. unfold rhe. pose proof (Z.div_mod n d ltac:(lia)) as E.
  pose proof (Z.mod_pos_bound n d H).
  set (q := n / d) in *. set (r := n mod d) in *. clearbody q r.
  destruct (Z.compare_spec (2 * r) d); [destruct (Z.even q)| |]; lia.
Qed.

Lemma rhe_unique n d k : 0 < d -> 2 * Z.abs (n - d * k) < d -> rhe n d = k.
Proof.
  intros H U. pose proof (rhe_spec n d H) as S.
  assert (Z.abs (d * (rhe n d - k)) < d) as A by lia.
  assert (rhe n d - k = 0); [|lia]. 
  rewrite Z.abs_mul in A. rewrite (Z.abs_eq d) in A by lia.
  assert (Z.abs (rhe n d - k) < 1) by nia. lia.
Qed.

Lemma rhe_exact k d : 0 < d -> rhe (d * k) d = k.
Proof. intros H. apply rhe_unique; auto. rewrite Z.sub_diag. cbn. lia. Qed.

Lemma rhe_mono n1 n2 d : 0 < d -> n1 <= n2 -> rhe n1 d <= rhe n2 d.
Proof.
  intros H L. unfold rhe.
  pose proof (Z.div_mod n1 d ltac:(lia)) as E1. pose proof (Z.mod_pos_bound n1 d H).
  pose proof (Z.div_mod n2 d ltac:(lia)) as E2. pose proof (Z.mod_pos_bound n2 d H).
  assert (n1 / d <= n2 / d) by (apply Z.div_le_mono; lia).
  destruct (Z.eq_dec (n1 / d) (n2 / d)) as [Eq|Ne].
  - rewrite Eq in *. assert (n1 mod d <= n2 mod d) by lia.
    destruct (Z.compare_spec (2 * (n1 mod d)) d); destruct (Z.compare_spec (2 * (n2 mod d)) d);
      try (destruct (Z.even (n2 / d))); lia.
  - destruct (2 * (n1 mod d) ?= d); destruct (2 * (n2 mod d) ?= d);
      destruct (Z.even (n1 / d)); destruct (Z.even (n2 / d)); lia.
Qed.

Lemma rhe_nonneg n d : 0 < d -> 0 <= n -> 0 <= rhe n d.
Proof.
  intros H L. rewrite <- (rhe_exact 0 d H). apply rhe_mono; lia.
Qed.

Lemma rhe_cancel n d k : 0 < d -> 0 < k -> rhe (n * k) (d * k) = rhe n d.
Proof.
  intros Hd Hk. unfold rhe.
  rewrite Z.div_mul_cancel_r by lia. rewrite Z.mul_mod_distr_r by lia.
  replace (2 * (n mod d * k) ?= d * k) with (2 * (n mod d) ?= d); [reflexivity|].
  replace (2 * (n mod d * k)) with ((2 * (n mod d)) * k) by ring.
  destruct (Z.compare_spec (2 * (n mod d)) d); symmetry.
  - apply Z.compare_eq_iff. nia.
  - apply Z.compare_lt_iff. nia.
  - apply Z.compare_gt_iff. nia.
Qed.

Lemma rhe_same n1 d1 n2 d2 : 0 < d1 -> 0 < d2 -> n1 * d2 = n2 * d1 -> rhe n1 d1 = rhe n2 d2.
Proof.
  intros H1 H2 E. rewrite <- (rhe_cancel n1 d1 d2), <- (rhe_cancel n2 d2 d1) by auto.
  rewrite E. now rewrite (Z.mul_comm d1 d2).
Qed.

Lemma rhe_frac n d : 0 < d -> (Qabs (frac n d - inject_Z (rhe n d)) <= 1 # 2)%Q.
Proof.
  intros H. pose proof (rhe_spec n d H) as S. pose proof (iz_pos d H) as P.
  assert (-d <= 2 * (n - d * rhe n d) <= d) as [A B] by lia.
  rewrite Zle_Qle in A, B. rewrite inject_Z_mult, inject_Z_opp in A. rewrite inject_Z_mult in B.
  unfold Z.sub in A, B. rewrite inject_Z_plus, inject_Z_opp, inject_Z_mult in A, B.
  rewrite <- (frac_mul n d H) in A, B.
  set (q := frac n d) in *. set (k := inject_Z (rhe n d)) in *. change (inject_Z 2) with 2%Q in *.
  apply Qabs_Qle_condition.
  assert (- (1#2) * inject_Z d <= (q - k) * inject_Z d)%Q as A' by lra.
  assert ((q - k) * inject_Z d <= (1#2) * inject_Z d)%Q as B' by lra.
  apply Qmult_le_r in A'; auto. apply Qmult_le_r in B'; auto.
Qed.

Lemma iz_lt a b : (inject_Z a < inject_Z b)%Q <-> a < b.
Proof. now rewrite <- Zlt_Qlt. Qed.
Lemma iz_le a b : (inject_Z a <= inject_Z b)%Q <-> a <= b.
Proof. now rewrite <- Zle_Qle. Qed.

(** an integer within less than 1/2 *)
Lemma rhe_frac_unique n d k : 0 < d -> (Qabs (frac n d - inject_Z k) < 1 # 2)%Q -> rhe n d = k.
Proof.
  intros H U. pose proof (rhe_frac n d H) as S.
  assert (Qabs (inject_Z (rhe n d - k)) < 1)%Q as A.
  { unfold Z.sub. rewrite inject_Z_plus, inject_Z_opp.
    setoid_replace (inject_Z (rhe n d) + - inject_Z k)%Q
      with ((frac n d - inject_Z k) - (frac n d - inject_Z (rhe n d)))%Q by ring.
    eapply Qle_lt_trans; [apply Qabs_triangle|]. rewrite Qabs_opp. lra. }
  apply Qabs_Qlt_condition in A as [A B].
  change 1%Q with (inject_Z 1) in B. change (-(1))%Q with (inject_Z (-1)) in A.
  rewrite <- Zlt_Qlt in A, B. lia.
Qed.

(** ** Scaling by a power of two *)

Lemma rhe_scaled_frac n d e : 0 < d ->
  exists n' d', 0 < d' /\ rhe_scaled n d e = rhe n' d' /\ (frac n' d' == frac n d * p2 (- e))%Q
             /\ (0 < n -> 0 < n').
Proof.
  intros H. unfold rhe_scaled. destruct (Z.leb_spec 0 e).
  - assert (0 < 2 ^ e) by (apply Z.pow_pos_nonneg; lia).
    exists n, (d * 2 ^ e). repeat split; auto; [nia|].
    symmetry. apply frac_unique; [nia|]. rewrite inject_Z_mult, <- p2_Z by lia.
    rewrite <- (frac_mul n d H). pose proof (p2_opp e) as O.
    transitivity (frac n d * inject_Z d * (p2 (- e) * p2 e))%Q; [ring|]. rewrite O. ring.
  - assert (0 < 2 ^ (- e)) by (apply Z.pow_pos_nonneg; lia).
    exists (n * 2 ^ (- e)), d. repeat split; auto; [|nia].
    symmetry. apply frac_unique; auto. rewrite inject_Z_mult, <- p2_Z by lia.
    rewrite <- (frac_mul n d H). ring.
Qed.

Lemma rhe_scaled_spec n d e : 0 < d ->
  (Qabs (frac n d * p2 (- e) - inject_Z (rhe_scaled n d e)) <= 1 # 2)%Q.
Proof.
  intros H. destruct (rhe_scaled_frac n d e H) as (n' & d' & H' & -> & E & _).
  rewrite <- E. now apply rhe_frac.
Qed.

Lemma rhe_scaled_exact n d e k : 0 < d -> (frac n d == inject_Z k * p2 e)%Q -> rhe_scaled n d e = k.
Proof.
  intros H E. destruct (rhe_scaled_frac n d e H) as (n' & d' & H' & -> & E' & _).
  apply rhe_frac_unique; auto. rewrite E', E.
  setoid_replace (inject_Z k * p2 e * p2 (- e) - inject_Z k)%Q
    with (inject_Z k * (p2 (-e) * p2 e - 1))%Q by ring.
  rewrite p2_opp. setoid_replace (inject_Z k * (1 - 1))%Q with 0%Q by ring. reflexivity.
Qed.

Lemma rhe_scaled_same n1 d1 n2 d2 e : 0 < d1 -> 0 < d2 -> n1 * d2 = n2 * d1 ->
  rhe_scaled n1 d1 e = rhe_scaled n2 d2 e.
Proof.
  intros H1 H2 E. unfold rhe_scaled. destruct (Z.leb_spec 0 e).
  - assert (0 < 2 ^ e) by (apply Z.pow_pos_nonneg; lia). apply rhe_same; nia.
  - apply rhe_same; auto. nia.
Qed.

(** the exponent of the last place *)
Lemma ulp_exp_spec n d : 0 < n -> 0 < d ->
  let e := ulp_exp n d in
  -1074 <= e /\ (frac n d < p2 (53 + e))%Q /\ (e = -1074 \/ (p2 (52 + e) <= frac n d)%Q).
Proof.
  intros Hn Hd. unfold ulp_exp.
  set (e0 := Z.log2 n - Z.log2 d).
  pose proof (Z.log2_spec n Hn) as [Ln Un]. pose proof (Z.log2_spec d Hd) as [Ld Ud].
  pose proof (Z.log2_nonneg n). pose proof (Z.log2_nonneg d).
  assert (Up : (frac n d < p2 (e0 + 1))%Q).
  { apply frac_lt; auto.
    assert (p2 (e0 + 1) * p2 (Z.log2 d) == p2 (Z.succ (Z.log2 n)))%Q as E.
    { rewrite <- p2_plus. replace (e0 + 1 + Z.log2 d) with (Z.succ (Z.log2 n)) by (unfold e0; lia). reflexivity. }
    rewrite (p2_Z (Z.log2 d)), (p2_Z (Z.succ _)) in E by lia.
    apply iz_lt in Un. apply iz_le in Ld.
    eapply Qlt_le_trans; [exact Un|]. rewrite <- E.
    apply Qmult_le_l; auto using p2_pos. }
  assert (Lo : (p2 (e0 - 1) <= frac n d)%Q).
  { apply le_frac; auto.
    assert (p2 (e0 - 1) * p2 (Z.succ (Z.log2 d)) == p2 (Z.log2 n))%Q as E.
    { rewrite <- p2_plus. replace (e0 - 1 + Z.succ (Z.log2 d)) with (Z.log2 n) by (unfold e0; lia). reflexivity. }
    rewrite (p2_Z (Z.log2 n)), (p2_Z (Z.succ _)) in E by lia.
    apply iz_le in Ln. apply iz_lt in Ud.
    eapply Qle_trans; [|exact Ln]. rewrite <- E.
    apply Qmult_le_l; auto using p2_pos. lra. }
  set (below := if 0 <=? e0 then n <? d * 2 ^ e0 else n * 2 ^ (- e0) <? d).
  assert (B : if below then (frac n d < p2 e0)%Q else (p2 e0 <= frac n d)%Q).
  { unfold below. destruct (Z.leb_spec 0 e0).
    - assert (p2 e0 * inject_Z d == inject_Z (d * 2 ^ e0))%Q as E
        by (rewrite p2_Z, inject_Z_mult by lia; ring).
      destruct (Z.ltb_spec n (d * 2 ^ e0)) as [L|L].
      + apply frac_lt; auto. rewrite E. now apply iz_lt.
      + apply le_frac; auto. rewrite E. now apply iz_le.
    - assert (inject_Z (n * 2 ^ (- e0)) == inject_Z n * p2 (- e0))%Q as E
        by (rewrite p2_Z, inject_Z_mult by lia; ring).
      pose proof (p2_opp e0) as O. pose proof (p2_pos (- e0)) as P.
      destruct (Z.ltb_spec (n * 2 ^ (- e0)) d) as [L|L].
      + apply frac_lt; auto. apply iz_lt in L. rewrite E in L.
        apply (Qmult_lt_r _ _ (p2 (- e0)) P).
        setoid_replace (p2 e0 * inject_Z d * p2 (- e0))%Q with (inject_Z d * (p2 (- e0) * p2 e0))%Q by ring.
        rewrite O. lra.
      + apply le_frac; auto. apply iz_le in L. rewrite E in L.
        apply (Qmult_le_r _ _ (p2 (- e0)) P).
        setoid_replace (p2 e0 * inject_Z d * p2 (- e0))%Q with (inject_Z d * (p2 (- e0) * p2 e0))%Q by ring.
        rewrite O. lra. }
  cbv zeta. split; [lia|].
  destruct below.
  - destruct (Z.le_gt_cases (-1074) (e0 - 53)).
    + rewrite Z.max_r by lia. split; [|right].
      * now replace (53 + (e0 - 53)) with e0 by lia.
      * now replace (52 + (e0 - 53)) with (e0 - 1) by lia.
    + rewrite Z.max_l by lia. split; [|now left].
      eapply Qlt_le_trans; [exact B|]. apply p2_le. lia.
  - destruct (Z.le_gt_cases (-1074) (e0 - 52)).
    + rewrite Z.max_r by lia. split; [|right].
      * now replace (53 + (e0 - 52)) with (e0 + 1) by lia.
      * now replace (52 + (e0 - 52)) with e0 by lia.
    + rewrite Z.max_l by lia. split; [|now left].
      eapply Qlt_le_trans; [exact Up|]. apply p2_le. lia.
Qed.

Lemma ulp_exp_unique n d e : 0 < n -> 0 < d ->
  -1074 <= e -> (frac n d < p2 (53 + e))%Q -> (e = -1074 \/ (p2 (52 + e) <= frac n d)%Q) ->
  ulp_exp n d = e.
Proof.
  intros Hn Hd A B C. destruct (ulp_exp_spec n d Hn Hd) as (A' & B' & C').
  set (e' := ulp_exp n d) in *.
  destruct (Z.lt_trichotomy e e') as [L|[->|L]]; auto; exfalso.
  - destruct C' as [C'|C']; [lia|].
    assert (p2 (52 + e') < p2 (53 + e))%Q as X by lra. apply p2_lt_inv in X. lia.
  - destruct C as [C|C]; [lia|].
    assert (p2 (52 + e) < p2 (53 + e'))%Q as X by lra. apply p2_lt_inv in X. lia.
Qed.

Lemma ulp_exp_same n1 d1 n2 d2 : 0 < n1 -> 0 < d1 -> 0 < n2 -> 0 < d2 -> n1 * d2 = n2 * d1 ->
  ulp_exp n1 d1 = ulp_exp n2 d2.
Proof.
  intros A B C D E. symmetry. destruct (ulp_exp_spec n1 d1 A B) as (X & Y & Z).
  pose proof (frac_cross _ _ _ _ B D E) as F.
  apply ulp_exp_unique; auto; rewrite <- F; auto.
Qed.

Lemma round64_same neg n1 d1 n2 d2 : 0 <= n1 -> 0 < d1 -> 0 <= n2 -> 0 < d2 -> n1 * d2 = n2 * d1 ->
  round64 neg n1 d1 = round64 neg n2 d2.
Proof.
  intros A B C D E. unfold round64.
  destruct (Z.eqb_spec n1 0) as [->|N1]; destruct (Z.eqb_spec n2 0) as [->|N2]; auto; try nia.
  rewrite (ulp_exp_same n1 d1 n2 d2), (rhe_scaled_same n1 d1 n2 d2) by lia. reflexivity.
Qed.

(** ** Value of a double *)

Lemma sf_den_pos f : 0 < sf_den f.
Proof. destruct f; cbn [sf_den]; lia. Qed.

Definition val (f : spec_float) : Q := frac (sf_num f) (sf_den f).

Lemma val_finite s m e :
  (val (S754_finite s m e) == (if s then - (1) else 1) * inject_Z (Zpos m) * p2 e)%Q.
Proof.
  unfold val. symmetry. apply frac_unique; [apply sf_den_pos|]. cbn [sf_num sf_den].
  rewrite !inject_Z_mult.
  assert (p2 e * inject_Z (2 ^ Z.max 0 (- e)) == inject_Z (2 ^ Z.max 0 e))%Q as E.
  { rewrite <- !p2_Z by lia. rewrite <- p2_plus. replace (e + Z.max 0 (- e)) with (Z.max 0 e) by lia.
    reflexivity. }
  rewrite <- E. destruct s; ring.
Qed.

Lemma val_zero s : (val (S754_zero s) == 0)%Q.
Proof. reflexivity. Qed.

Lemma sfQ_val f : (sfQ f == val f)%Q.
Proof.
  unfold sfQ, val, qof, frac. rewrite (Qmake_Qdiv (sf_num f)).
  rewrite Z2Pos.id by apply sf_den_pos. reflexivity.
Qed.

(** what [round64] returns below the overflow threshold *)
Definition sgnQ (neg : bool) : Q := if neg then (- (1))%Q else 1%Q.

Lemma rhe_scaled_range n d : 0 < n -> 0 < d ->
  let e := ulp_exp n d in
  0 <= rhe_scaled n d e <= 2 ^ 53 /\ (e = -1074 \/ 2 ^ 52 <= rhe_scaled n d e).
Proof.
  intros Hn Hd. destruct (ulp_exp_spec n d Hn Hd) as (A & B & C). cbv zeta.
  set (e := ulp_exp n d) in *.
  destruct (rhe_scaled_frac n d e Hd) as (n' & d' & H' & E' & F & P). rewrite E'.
  specialize (P Hn).
  assert (HP : forall k, 0 <= k -> (p2 (k + e) * p2 (- e) == inject_Z (2 ^ k))%Q).
  { intros k Hk. rewrite <- p2_plus. replace (k + e + - e) with k by lia. now apply p2_Z. }
  assert (U : n' < 2 ^ 53 * d').
  { apply iz_lt. rewrite inject_Z_mult. apply frac_lt; auto. rewrite F.
    rewrite <- (HP 53) by lia. apply Qmult_lt_r; auto using p2_pos. }
  split; [split|].
  - apply rhe_nonneg; lia.
  - rewrite <- (rhe_exact (2 ^ 53) d' H'). apply rhe_mono; lia.
  - destruct C as [C|C]; [now left|right].
    assert (2 ^ 52 * d' <= n').
    { apply iz_le. rewrite inject_Z_mult. apply le_frac; auto. rewrite F.
      rewrite <- (HP 52) by lia. apply Qmult_le_r; auto using p2_pos. }
    rewrite <- (rhe_exact (2 ^ 52) d' H'). apply rhe_mono; lia.
Qed.

Definition ovf : Q := (p2 1024 - p2 970)%Q.

Lemma p2_1023_ovf : (p2 1023 < ovf)%Q.
Proof. reflexivity. Qed.

Lemma round64_spec neg n d : 0 <= n -> 0 < d -> (frac n d < ovf)%Q ->
  let r := round64 neg n d in
  is_finite r = true /\ valid64 r /\ sf_sign r = neg /\
  (0 < n -> exists m, 0 <= m /\ (val r == sgnQ neg * (inject_Z m * p2 (ulp_exp n d)))%Q
                   /\ m = rhe_scaled n d (ulp_exp n d)).
Proof.
  intros Hn Hd Hb. unfold round64. destruct (Z.eqb_spec n 0) as [->|N].
  { cbn. repeat split; auto. lia. }
  assert (0 < n) as Hn' by lia. clear N Hn.
  destruct (rhe_scaled_range n d Hn' Hd) as [[R1 R2] R3].
  destruct (ulp_exp_spec n d Hn' Hd) as (A & B & C).
  set (e := ulp_exp n d) in *. set (m := rhe_scaled n d e) in *.
  assert (He : e <= 971).
  { destruct C as [C|C]; [lia|]. assert (p2 (52 + e) < p2 1024)%Q as X.
    { assert (ovf < p2 1024)%Q by reflexivity. lra. }
    apply p2_lt_inv in X. lia. }
  assert (He2 : m = 2 ^ 53 -> e <= 970).
  { intros Em. destruct (Z.eq_dec e 971) as [E971|]; [exfalso|lia].
    pose proof (rhe_scaled_spec n d e Hd) as S. fold m in S. rewrite Em, E971 in S.
    apply Qabs_Qle_condition in S as [S _].
    assert (frac n d * p2 (- (971)) < ovf * p2 (- (971)))%Q as X
      by (apply Qmult_lt_r; auto using p2_pos).
    assert (ovf * p2 (- (971)) == inject_Z (2 ^ 53) - (1 # 2))%Q as Y by reflexivity.
    lra. }
  destruct (Z.eqb_spec m (2 ^ 53)) as [E|E].
  - specialize (He2 E). destruct (Z.ltb_spec 971 (e + 1)); [lia|].
    change (2 ^ 52) with (Zpos (2 ^ 52)). cbv zeta. cbn [is_finite valid64 sf_sign].
    repeat split; auto; [left; split; [split; [reflexivity|reflexivity]|lia]|].
    intros _. exists m. repeat split; auto. rewrite val_finite, E, p2_plus, p2_1.
    unfold sgnQ. change (2 ^ 53) with (2 * 2 ^ 52). rewrite inject_Z_mult.
    change (Zpos (2 ^ 52)) with (2 ^ 52). change (inject_Z 2) with 2%Q. destruct neg; ring.
  - destruct (Z.ltb_spec 971 e); [lia|].
    destruct m as [|p|p] eqn:Em; [| |lia]; cbv zeta; cbn [is_finite valid64 sf_sign].
    + repeat split; auto. intros _. exists 0. repeat split; auto; try lia.
      rewrite val_zero. change (inject_Z 0) with 0%Q. ring.
    + repeat split; auto.
      { destruct R3 as [R3|R3]; [|left; lia].
        destruct (Z.lt_ge_cases (Zpos p) (2 ^ 52)); [right|left]; lia. }
      intros _. exists (Zpos p). repeat split; auto; try lia.
      rewrite val_finite. unfold sgnQ. ring.
Qed.

(** half a unit in the last place *)
Lemma round64_err neg n d : 0 <= n -> 0 < d -> (frac n d < ovf)%Q ->
  (Qabs (val (round64 neg n d) - sgnQ neg * frac n d) <= (1 # 2) * p2 (ulp_exp n d))%Q.
Proof.
  intros Hn Hd Hb. destruct (Z.eq_dec n 0) as [->|N].
  { unfold round64. cbn [Z.eqb]. rewrite val_zero.
    unfold frac. change (inject_Z 0) with 0%Q.
    pose proof (p2_pos (ulp_exp 0 d)). pose proof (iz_pos d Hd).
    setoid_replace (0 - sgnQ neg * (0 / inject_Z d))%Q with 0%Q by (field; lra).
    change (Qabs 0) with 0%Q. lra. }
  destruct (round64_spec neg n d Hn Hd Hb) as (_ & _ & _ & X).
  destruct (X ltac:(lia)) as (m & M & -> & Em). clear X.
  pose proof (rhe_scaled_spec n d (ulp_exp n d) Hd) as S. rewrite <- Em in S.
  set (e := ulp_exp n d) in *.
  setoid_replace (sgnQ neg * (inject_Z m * p2 e) - sgnQ neg * frac n d)%Q
    with (- sgnQ neg * ((frac n d * p2 (- e) - inject_Z m) * p2 e))%Q.
  2:{ setoid_replace (- sgnQ neg * ((frac n d * p2 (- e) - inject_Z m) * p2 e))%Q
        with (- sgnQ neg * (frac n d * (p2 (- e) * p2 e) - inject_Z m * p2 e))%Q by ring.
      rewrite p2_opp. ring. }
  rewrite Qabs_Qmult.
  assert (Qabs (- sgnQ neg) == 1)%Q as -> by (destruct neg; reflexivity).
  rewrite Qmult_1_l, Qabs_Qmult, (Qabs_pos (p2 e)) by (pose proof (p2_pos e); lra).
  apply Qmult_le_r; auto using p2_pos.
Qed.

(** relative error, down to half the smallest normal number *)
Lemma round64_rel neg n d : 0 < d -> 0 < n -> (p2 (-1023) <= frac n d)%Q -> (frac n d < ovf)%Q ->
  (Qabs (val (round64 neg n d) - sgnQ neg * frac n d) <= p2 (-52) * frac n d)%Q.
Proof.
  intros Hd Hn L U. eapply Qle_trans; [apply round64_err; auto; lia|].
  destruct (ulp_exp_spec n d Hn Hd) as (A & B & [C|C]).
  - rewrite C. setoid_replace ((1#2) * p2 (-1074))%Q with (p2 (-52) * p2 (-1023))%Q by reflexivity.
    apply Qmult_le_l; auto using p2_pos.
  - setoid_replace ((1#2) * p2 (ulp_exp n d))%Q with (p2 (-53) * p2 (52 + ulp_exp n d))%Q.
    + pose proof (p2_pos (52 + ulp_exp n d)).
      assert (p2 (-53) <= p2 (-52))%Q by (apply p2_le; lia). pose proof (p2_pos (-53)).
      nra.
    + rewrite <- p2_plus. replace (-53 + (52 + ulp_exp n d)) with (-1 + ulp_exp n d) by lia.
      rewrite p2_plus. reflexivity.
Qed.
Lemma round64_rel_normal neg n d : 0 < d -> 0 < n -> (p2 (-1022) <= frac n d)%Q -> (frac n d < ovf)%Q ->
  (Qabs (val (round64 neg n d) - sgnQ neg * frac n d) <= p2 (-53) * frac n d)%Q.
Proof.
  intros Hd Hn L U. eapply Qle_trans; [apply round64_err; auto; lia|].
  destruct (ulp_exp_spec n d Hn Hd) as (A & B & [C|C]).
  - rewrite C. setoid_replace ((1#2) * p2 (-1074))%Q with (p2 (-53) * p2 (-1022))%Q by reflexivity.
    apply Qmult_le_l; auto using p2_pos.
  - setoid_replace ((1#2) * p2 (ulp_exp n d))%Q with (p2 (-53) * p2 (52 + ulp_exp n d))%Q.
    + apply Qmult_le_l; auto using p2_pos.
    + rewrite <- p2_plus. replace (-53 + (52 + ulp_exp n d)) with (-1 + ulp_exp n d) by lia.
      rewrite p2_plus. reflexivity.
Qed.

(** numbers with at most 53 significant bits are not changed *)
Lemma round64_exact_gen neg n d M E : 0 < d -> 0 <= M <= 2 ^ 53 -> -1074 <= E ->
  0 <= n -> (frac n d == inject_Z M * p2 E)%Q -> (frac n d < ovf)%Q ->
  is_finite (round64 neg n d) = true /\ (val (round64 neg n d) == sgnQ neg * frac n d)%Q.
Proof.
  intros Hd HM HE Hn F Hb.
  destruct (round64_spec neg n d Hn Hd Hb) as (Fin & _ & _ & X). split; auto.
  destruct (Z.eq_dec n 0) as [->|N].
  { unfold round64. cbn [Z.eqb]. rewrite val_zero. unfold frac.
    pose proof (iz_pos d Hd). change (inject_Z 0) with 0%Q. field. lra. }
  destruct (X ltac:(lia)) as (m & M0 & -> & Em). clear X.
  assert (HM0 : 0 < M).
  { destruct (Z.eq_dec M 0) as [->|]; [|lia]. pose proof (frac_pos n d ltac:(lia) Hd).
    rewrite F in H. change (inject_Z 0) with 0%Q in H. lra. }
  destruct (ulp_exp_spec n d ltac:(lia) Hd) as (A & B & C).
  set (e := ulp_exp n d) in *.
  assert (Ex : exists k, (frac n d == inject_Z k * p2 e)%Q).
  { destruct (Z.le_gt_cases e E) as [Le|Gt].
    - exists (M * 2 ^ (E - e)). rewrite F, inject_Z_mult, <- p2_Z by lia.
      rewrite <- Qmult_assoc, <- p2_plus. now replace (E - e + e) with E by lia.
    - destruct C as [C|C]; [lia|].
      assert (M = 2 ^ 53 /\ e = E + 1) as [EM Ee].
      { rewrite F in C.
        assert (Hx : (p2 (52 + (e - E)) <= inject_Z M)%Q).
        { apply (Qmult_le_r _ _ (p2 E) (p2_pos E)). rewrite <- p2_plus.
          now replace (52 + (e - E) + E) with (52 + e) by lia. }
        rewrite p2_Z in Hx by lia. rewrite iz_le in Hx.
        assert (2 ^ 53 <= 2 ^ (52 + (e - E))) by (apply Z.pow_le_mono_r; lia).
        split; [lia|].
        destruct (Z.eq_dec e (E + 1)); auto. exfalso.
        assert (2 ^ 54 <= 2 ^ (52 + (e - E))) by (apply Z.pow_le_mono_r; lia). lia. }
      exists (2 ^ 52). rewrite F, EM, Ee, p2_plus, p2_1.
      change (2 ^ 53) with (2 ^ 52 * 2). rewrite inject_Z_mult. change (inject_Z 2) with 2%Q. ring. }
  destruct Ex as (k & Ek). rewrite (rhe_scaled_exact n d e k Hd Ek) in Em. subst m.
  rewrite Ek. reflexivity.
Qed.

Lemma round64_exact neg n d M E : 0 < d -> 0 <= M <= 2 ^ 53 -> -1074 <= E <= 900 ->
  0 <= n -> (frac n d == inject_Z M * p2 E)%Q ->
  is_finite (round64 neg n d) = true /\ (val (round64 neg n d) == sgnQ neg * frac n d)%Q.
Proof.
  intros Hd HM HE Hn F. apply (round64_exact_gen neg n d M E); auto; try lia.
  eapply Qlt_trans; [|exact p2_1023_ovf].
  rewrite F. eapply Qle_lt_trans with (y := (p2 53 * p2 900)%Q); [|reflexivity].
  assert (inject_Z M <= p2 53)%Q by (rewrite p2_Z by lia; apply iz_le; lia).
  assert (p2 E <= p2 900)%Q by (apply p2_le; lia).
  pose proof (p2_pos E). assert (0 <= inject_Z M)%Q by (apply iz_nonneg; lia).
  pose proof (p2_pos 53). nra.
Qed.

(** integers up to 2^53 *)
Lemma round64_int neg n : 0 <= n <= 2 ^ 53 ->
  is_finite (round64 neg n 1) = true /\ (val (round64 neg n 1) == sgnQ neg * inject_Z n)%Q.
Proof.
  intros H. assert (F : (frac n 1 == inject_Z n)%Q) by (unfold frac; change (inject_Z 1) with 1%Q; field).
  rewrite <- F. apply (round64_exact neg n 1 n 0); try lia. rewrite F, p2_0. ring.
Qed.

(** ** More about values *)

Lemma val_num_sign f : (0 <= sf_num f) <-> (0 <= val f)%Q.
Proof.
  unfold val. pose proof (sf_den_pos f) as P. rewrite le_frac by auto.
  rewrite Qmult_0_l. change 0%Q with (inject_Z 0). now rewrite iz_le.
Qed.

Lemma round64_ovf neg n d : 0 < d -> (ovf <= frac n d)%Q -> round64 neg n d = S754_infinity neg.
Proof.
  intros Hd H. assert (Hn : 0 < n).
  { assert (0 < frac n d)%Q as P by (assert (0 < ovf)%Q by reflexivity; lra).
    destruct (Z.lt_ge_cases 0 n); auto. exfalso.
    assert (frac n d <= 0)%Q; [|lra]. apply frac_le; auto. rewrite Qmult_0_l.
    change 0%Q with (inject_Z 0). apply iz_le. lia. }
  unfold round64. destruct (Z.eqb_spec n 0); [lia|].
  destruct (ulp_exp_spec n d Hn Hd) as (A & B & C).
  destruct (rhe_scaled_range n d Hn Hd) as [[R1 R2] R3].
  set (e := ulp_exp n d) in *. set (m := rhe_scaled n d e) in *.
  assert (He : 971 <= e).
  { assert (p2 1023 < p2 (53 + e))%Q as X by (pose proof p2_1023_ovf; lra).
    apply p2_lt_inv in X. lia. }
  destruct (Z.eqb_spec m (2 ^ 53)) as [E|E].
  - destruct (Z.ltb_spec 971 (e + 1)); [reflexivity|lia].
  - destruct (Z.ltb_spec 971 e); [reflexivity|].
    exfalso. assert (E971 : e = 971) by lia.
    assert (m = 2 ^ 53); [|contradiction].
    destruct (rhe_scaled_frac n d e Hd) as (n' & d' & H' & E' & F & P).
    fold m in E'.
    assert (2 ^ 54 - 1 <= 2 * 2 ^ 53 - 1) by lia.
    assert (G : (2 * 2 ^ 53 - 1) * d' <= 2 * n').
    { apply iz_le. rewrite (inject_Z_mult 2 n').
      assert (inject_Z (2 * 2 ^ 53 - 1) * (1 # 2) <= frac n' d')%Q as X.
      { rewrite F, E971. assert (inject_Z (2 * 2 ^ 53 - 1) * (1 # 2) == ovf * p2 (- (971)))%Q as -> by reflexivity.
        apply Qmult_le_r; auto using p2_pos. }
      apply le_frac in X; auto. rewrite inject_Z_mult. change (inject_Z 2) with 2%Q.
      set (K := inject_Z (2 * 2 ^ 53 - 1)) in *. lra. }
    assert (M : 2 ^ 53 <= m).
    { rewrite E'. apply Z.le_trans with (rhe ((2 * 2 ^ 53 - 1) * d') (2 * d')).
      - rewrite (Z.mul_comm 2 d'), (Z.mul_comm _ d').
        rewrite (Z.mul_comm d' (2 * 2 ^ 53 - 1)), (Z.mul_comm d' 2).
        rewrite rhe_cancel by lia. vm_compute. discriminate.
      - rewrite <- (rhe_cancel n' d' 2) by lia. rewrite (Z.mul_comm d' 2).
        apply rhe_mono; lia. }
    lia.
Qed.

(** ** Nearest *)

(** no integer is closer than the rounded one *)
Lemma rhe_nearest n d k : 0 < d -> Z.abs (n - d * rhe n d) <= Z.abs (n - d * k).
Proof.
  intros H. pose proof (rhe_spec n d H) as S.
  destruct (Z.eq_dec k (rhe n d)) as [->|N]; [lia|].
  assert (d <= Z.abs (d * (rhe n d - k))).
  { rewrite Z.abs_mul, (Z.abs_eq d) by lia. assert (1 <= Z.abs (rhe n d - k)) by lia. nia. }
  lia.
Qed.
Lemma rhe_frac_nearest n d k : 0 < d ->
  (Qabs (frac n d - inject_Z (rhe n d)) <= Qabs (frac n d - inject_Z k))%Q.
Proof.
  intros H. pose proof (rhe_nearest n d k H) as S.
  assert (X : forall j, (Qabs (frac n d - inject_Z j) * inject_Z d == inject_Z (Z.abs (n - d * j)))%Q).
  { intros j. pose proof (iz_pos d H) as P.
    rewrite <- (Qabs_pos (inject_Z d)) at 1 by lra. rewrite <- Qabs_Qmult.
    setoid_replace ((frac n d - inject_Z j) * inject_Z d)%Q with (inject_Z (n - d * j)).
    - reflexivity.
    - unfold Z.sub. rewrite inject_Z_plus, inject_Z_opp, inject_Z_mult, <- (frac_mul n d H). ring. }
  apply (Qmult_le_r _ _ (inject_Z d) (iz_pos d H)). rewrite !X. now apply iz_le.
Qed.

Lemma Qabs_scale x k : (Qabs (x * p2 k) == Qabs x * p2 k)%Q.
Proof. rewrite Qabs_Qmult, (Qabs_pos (p2 k)); [reflexivity|]. pose proof (p2_pos k). lra. Qed.

Lemma round64_nearest_pos n d : 0 <= n -> 0 < d -> (frac n d < ovf)%Q ->
  forall g, is_finite g = true -> valid64 g ->
  (Qabs (val (round64 false n d) - frac n d) <= Qabs (val g - frac n d))%Q.
Proof.
  intros Hn Hd Hb g Fg Vg. destruct (Z.eq_dec n 0) as [->|N].
  { unfold round64. cbn [Z.eqb]. rewrite val_zero.
    assert (frac 0 d == 0)%Q as -> by (unfold frac; change (inject_Z 0) with 0%Q; pose proof (iz_pos d Hd); field; lra).
    apply Qabs_nonneg. }
  assert (Hn' : 0 < n) by lia.
  destruct (round64_spec false n d Hn Hd Hb) as (_ & _ & _ & X).
  destruct (X Hn') as (m & M0 & V & Em). clear X. rewrite V. cbn [sgnQ]. rewrite Qmult_1_l.
  destruct (ulp_exp_spec n d Hn' Hd) as (A & B & C).
  pose proof (round64_err false n d Hn Hd Hb) as Herr. rewrite V in Herr. cbn [sgnQ] in Herr.
  rewrite !Qmult_1_l in Herr.
  set (e := ulp_exp n d) in *. set (q := frac n d) in *.
  assert (Near : forall k, (Qabs (inject_Z m * p2 e - q) <= Qabs (inject_Z k * p2 e - q))%Q).
  { intros k. destruct (rhe_scaled_frac n d e Hd) as (n' & d' & H' & E' & F & _).
    rewrite <- Em in E'. fold q in F.
    assert (Y : forall j, (Qabs (inject_Z j * p2 e - q) == Qabs (frac n' d' - inject_Z j) * p2 e)%Q).
    { intros j. rewrite <- Qabs_scale, Qabs_Qminus, F.
      setoid_replace ((q * p2 (- e) - inject_Z j) * p2 e)%Q with (q * (p2 (- e) * p2 e) - inject_Z j * p2 e)%Q by ring.
      rewrite p2_opp. now setoid_replace (q * 1 - inject_Z j * p2 e)%Q with (q - inject_Z j * p2 e)%Q by ring. }
    rewrite !Y. apply Qmult_le_r; auto using p2_pos. rewrite E'. now apply rhe_frac_nearest. }
  assert (Q0 : (0 < q)%Q) by (apply frac_pos; auto).
  destruct g as [s|s| |s M E]; try discriminate.
  - rewrite val_zero. specialize (Near 0). change (inject_Z 0) with 0%Q in Near.
    now setoid_replace (0 * p2 e - q)%Q with (0 - q)%Q in Near by ring.
  - destruct s.
    { (* negative candidate *)
      specialize (Near 0). eapply Qle_trans; [exact Near|].
      assert (val (S754_finite true M E) < 0)%Q as Neg.
      { rewrite val_finite. pose proof (p2_pos E). pose proof (iz_pos (Zpos M) ltac:(lia)). nra. }
      change (inject_Z 0) with 0%Q. setoid_replace (0 * p2 e - q)%Q with (- q)%Q by ring.
      rewrite Qabs_opp, (Qabs_pos q) by lra. rewrite Qabs_neg by lra. lra. }
    rewrite val_finite. rewrite Qmult_1_l.
    destruct (Z.le_gt_cases e E) as [Le|Gt].
    + specialize (Near (Zpos M * 2 ^ (E - e))). rewrite inject_Z_mult, <- p2_Z in Near by lia.
      rewrite <- Qmult_assoc, <- p2_plus in Near. now replace (E - e + e) with E in Near by lia.
    + assert (e > -1074) by (cbn in Vg; lia). destruct C as [C|C]; [lia|].
      assert (Gl : (inject_Z (Zpos M) * p2 E <= p2 (52 + e))%Q).
      { assert (inject_Z (Zpos M) <= p2 53)%Q by (rewrite p2_Z by lia; apply iz_le; cbn in Vg; lia).
        eapply Qle_trans with (y := (p2 53 * p2 E)%Q).
        - apply Qmult_le_r; auto using p2_pos.
        - rewrite <- p2_plus. apply p2_le. lia. }
      specialize (Near (2 ^ 52)). rewrite <- p2_Z in Near by lia. rewrite <- p2_plus in Near.
      eapply Qle_trans; [exact Near|].
      rewrite !Qabs_neg by lra. lra.
Qed.

Lemma val_opp s m e : (val (S754_finite s m e) == - val (S754_finite (negb s) m e))%Q.
Proof. rewrite !val_finite. destruct s; cbn [negb]; ring. Qed.

Definition sf_opp (f : spec_float) : spec_float :=
  match f with
  | S754_zero s => S754_zero (negb s)
  | S754_infinity s => S754_infinity (negb s)
  | S754_nan => S754_nan
  | S754_finite s m e => S754_finite (negb s) m e
  end.
Lemma val_sf_opp f : (val (sf_opp f) == - val f)%Q.
Proof.
  destruct f; try (cbn [sf_opp]; reflexivity). cbn [sf_opp]. rewrite (val_opp s). ring.
Qed.
Lemma round64_neg n d : round64 true n d = sf_opp (round64 false n d).
Proof.
  unfold round64. destruct (n =? 0); auto. destruct (rhe_scaled n d (ulp_exp n d) =? 2 ^ 53).
  - destruct (971 <? ulp_exp n d + 1); reflexivity.
  - destruct (971 <? ulp_exp n d); auto. destruct (rhe_scaled n d (ulp_exp n d)); reflexivity.
Qed.

Lemma round64_nearest neg n d : 0 <= n -> 0 < d -> (frac n d < ovf)%Q ->
  forall g, is_finite g = true -> valid64 g ->
  (Qabs (val (round64 neg n d) - sgnQ neg * frac n d) <= Qabs (val g - sgnQ neg * frac n d))%Q.
Proof.
  intros Hn Hd Hb g Fg Vg. destruct neg; cbn [sgnQ].
  - rewrite round64_neg, val_sf_opp.
    setoid_replace (- val (round64 false n d) - - (1) * frac n d)%Q
      with (- (val (round64 false n d) - frac n d))%Q by ring.
    rewrite Qabs_opp.
    setoid_replace (val g - - (1) * frac n d)%Q with (- (val (sf_opp g) - frac n d))%Q
      by (rewrite val_sf_opp; ring).
    rewrite Qabs_opp. apply round64_nearest_pos; auto; destruct g; auto.
  - rewrite !Qmult_1_l. now apply round64_nearest_pos.
Qed.
