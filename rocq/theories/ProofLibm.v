(** The reference implementation meets the assumptions on the C library. *)
From Coq Require Import ZArith QArith Qabs Bool Lia Lqa List.
From Coq Require Import Floats.SpecFloat.
From Verif Require Import PyBase ProofPyBase PyFloat ProofFloat SpecFloat ProofFloatText ModelFortran SpecLibm.
Import ListNotations.
Open Scope Z_scope.

Definition exponents : list Z := map (fun i => Z.of_nat i - 307) (seq 0 616).

Lemma in_exponents k : -307 <= k <= 308 -> In k exponents.
Proof.
  intros H. apply in_map_iff. exists (Z.to_nat (k + 307)). split; [lia|]. apply in_seq. lia.
Qed.

Lemma forall_exponents (P : Z -> bool) : forallb P exponents = true -> forall k, -307 <= k <= 308 -> P k = true.
Proof. intros H k Hk. rewrite forallb_forall in H. apply H. now apply in_exponents. Qed.

Lemma floor_log10_spec n d : 0 < n -> 0 < d ->
  (p10 (floor_log10 n d) <= frac n d)%Q /\ (frac n d < p10 (floor_log10 n d + 1))%Q.
Proof.
  intros Hn Hd. unfold floor_log10.
  set (k := Z.of_nat (ndigits n) - Z.of_nat (ndigits d)).
  assert (LB : forall x, 0 < x -> 10 ^ (Z.of_nat (ndigits x) - 1) <= x).
  { intros x Hx. destruct (ndigits_spec x ltac:(lia)) as [_ [E|E]]; [rewrite E; cbn; lia|exact E]. }
  destruct (ndigits_spec n ltac:(lia)) as (N2 & _). pose proof (LB n Hn) as N1.
  destruct (ndigits_spec d ltac:(lia)) as (D2 & _). pose proof (LB d Hd) as D1.
  assert (P : (p10 k == frac (10 ^ Z.max 0 k) (10 ^ Z.max 0 (- k)))%Q).
  { apply frac_unique; [apply Z.pow_pos_nonneg; lia|]. rewrite <- !p10_Z by lia. rewrite <- p10_plus.
    now replace (k + Z.max 0 (- k)) with (Z.max 0 k) by lia. }
  assert (Q0 : 0 < 10 ^ Z.max 0 (- k)) by (apply Z.pow_pos_nonneg; lia).
  (* p10 (k-1) <= n/d < p10 (k+1) *)
  assert (A : (frac n d < p10 (k + 1))%Q).
  { apply frac_lt; auto. apply Qlt_le_trans with (p10 (Z.of_nat (ndigits n))).
    - rewrite p10_Z by lia. now apply iz_lt.
    - replace (Z.of_nat (ndigits n)) with (k + 1 + (Z.of_nat (ndigits d) - 1)) by (unfold k; lia).
      rewrite p10_plus. apply Qmult_le_l; [apply p10_pos|].
      rewrite p10_Z by (pose proof (ndigits_pos d); lia). apply iz_le. exact D1. }
  assert (B : (p10 (k - 1) <= frac n d)%Q).
  { apply le_frac; auto. apply Qle_trans with (p10 (Z.of_nat (ndigits n) - 1)).
    - replace (Z.of_nat (ndigits n) - 1) with (k - 1 + Z.of_nat (ndigits d)) by (unfold k; lia).
      rewrite p10_plus. apply Qmult_le_l; [apply p10_pos|]. rewrite p10_Z by lia. apply iz_le. lia.
    - rewrite p10_Z by (pose proof (ndigits_pos n); lia). apply iz_le. exact N1. }
  unfold frac_leb. destruct (Z.leb_spec (10 ^ Z.max 0 k * d) (n * 10 ^ Z.max 0 (- k))) as [L|L].
  - split; [|exact A]. rewrite P. apply frac_le_cross; auto.
  - split; [exact B|]. replace (k - 1 + 1) with k by lia. rewrite P. apply frac_lt_cross; auto.
Qed.

Lemma pow10_frac k : (frac (dec_num 1 k) (dec_den k) == p10 k)%Q.
Proof. rewrite dec_frac. unfold decimalQ, p10. change (inject_Z 1) with 1%Q. ring. Qed.

Lemma dec_num_pos k : 0 < dec_num 1 k.
Proof. unfold dec_num. assert (0 < 10 ^ Z.max 0 k) by (apply Z.pow_pos_nonneg; lia). lia. Qed.
Lemma dec_den_pos k : 0 < dec_den k.
Proof. apply Z.pow_pos_nonneg; lia. Qed.

Lemma p10_range k : -307 <= k <= 308 -> (p2 (-1022) <= p10 k)%Q /\ (p10 k < ovf)%Q.
Proof.
  intros H. split.
  - apply Qle_trans with (p10 (-307)); [|apply p10_le; lia]. vm_compute. discriminate.
  - apply Qle_lt_trans with (p10 308); [apply p10_le; lia|]. vm_compute. reflexivity.
Qed.

Lemma pow10_double_rel k : -307 <= k <= 308 ->
  (Qabs (val (pow10_double false k) - p10 k) <= p2 (-53) * p10 k)%Q.
Proof.
  intros H. destruct (p10_range k H) as [A B]. unfold pow10_double.
  pose proof (round64_rel_normal false (dec_num 1 k) (dec_den k) (dec_den_pos k) (dec_num_pos k)) as R.
  rewrite pow10_frac in R. cbn [sgnQ] in R. specialize (R A B).
  setoid_replace (p10 k) with (1 * p10 k)%Q at 1 by ring. exact R.
Qed.

Lemma frac_eqb_iff n d f : 0 < d -> frac_eqb n d (sf_num f) (sf_den f) = true <-> (frac n d == val f)%Q.
Proof.
  intros H. unfold frac_eqb, val. rewrite Z.eqb_eq. symmetry. apply frac_eq_cross; auto. apply sf_den_pos.
Qed.

Lemma p10_bounds_unique e k x : (p10 e <= x)%Q -> (x < p10 (e + 1))%Q ->
  (p10 k <= x)%Q -> (x < p10 (k + 1))%Q -> e = k.
Proof.
  intros A B C D. assert (p10 e < p10 (k + 1))%Q as H1 by lra. assert (p10 k < p10 (e + 1))%Q as H2 by lra.
  apply p10_lt_inv in H1, H2. lia.
Qed.

Lemma p10_succ k : (p10 (k + 1) == 10 * p10 k)%Q.
Proof. rewrite p10_plus. change (p10 1) with 10%Q. ring. Qed.

Lemma pow10_double_pos k : -307 <= k <= 308 -> 0 < sf_num (pow10_double false k).
Proof.
  intros H. pose proof (pow10_double_rel k H) as R. apply Qabs_Qle_condition in R as [R1 R2].
  pose proof (p10_pos k) as P. assert (S : (p2 (-53) <= 1 # 2)%Q) by (vm_compute; discriminate).
  assert (0 < val (pow10_double false k))%Q as V by nra.
  assert (0 <= sf_num (pow10_double false k)) as N by (apply val_num_sign; lra).
  destruct (Z.eq_dec (sf_num (pow10_double false k)) 0) as [E|]; [|lia].
  exfalso. unfold val in V. rewrite E in V. unfold frac in V. change (inject_Z 0) with 0%Q in V.
  unfold Qdiv in V. lra.
Qed.

Lemma elog_ref_pow10 k : -307 <= k <= 308 ->
  elog_ref (sf_num (pow10_double false k)) (sf_den (pow10_double false k)) = k.
Proof.
  intros H. pose proof (pow10_double_rel k H) as R. apply Qabs_Qle_condition in R as [R1 R2].
  pose proof (p10_pos k) as P. assert (S : (p2 (-53) <= 1 # 100)%Q) by (vm_compute; discriminate).
  pose proof (pow10_double_pos k H) as Np. pose proof (sf_den_pos (pow10_double false k)) as Dp.
  destruct (floor_log10_spec _ _ Np Dp) as [A B]. fold (val (pow10_double false k)) in A, B.
  unfold elog_ref. set (j := floor_log10 _ _) in *.
  destruct (Qlt_le_dec (val (pow10_double false k)) (p10 k)) as [L|L].
  - assert (j = k - 1) as ->.
    { apply (p10_bounds_unique j (k - 1) (val (pow10_double false k))); auto.
      - replace k with (k - 1 + 1) in P, R1 by lia. rewrite p10_succ in P, R1.
        replace (k - 1 + 1) with k in R1 by lia. nra.
      - now replace (k - 1 + 1) with k by lia. }
    replace (k - 1 + 1) with k by lia.
    assert (frac_eqb (sf_num (pow10_double false k)) (sf_den (pow10_double false k))
       (sf_num (pow10_double false k)) (sf_den (pow10_double false k)) = true) as ->.
    { unfold frac_eqb. apply Z.eqb_refl. }
    destruct (Z.leb_spec (-307) k); [|lia]. destruct (Z.leb_spec k 308); [|lia]. reflexivity.
  - assert (j = k) as ->.
    { apply (p10_bounds_unique j k (val (pow10_double false k))); auto. rewrite p10_succ. nra. }
    destruct (_ && _) eqn:E; [|reflexivity]. exfalso.
    apply andb_true_iff in E as [E E3]. apply andb_true_iff in E as [E1 E2].
    apply Z.leb_le in E1, E2. apply frac_eqb_iff in E3; auto. fold (val (pow10_double false k)) in E3.
    pose proof (pow10_double_rel (k + 1) ltac:(lia)) as R'. apply Qabs_Qle_condition in R' as [R1' R2'].
    rewrite p10_succ in *. nra.
Qed.

Lemma libm_ref_ok : libm_ok libm_ref.
Proof.
  split.
  - intros n d Hn Hd e. change (inject_Z n / inject_Z d)%Q with (frac n d).
    destruct (floor_log10_spec n d Hn Hd) as [A B]. unfold e. cbn [l_elog libm_ref]. unfold elog_ref.
    fold (p10 (floor_log10 n d)) in *.
    set (k := floor_log10 n d) in *.
    assert (S42 : (0 < p2 (-42))%Q) by apply p2_pos.
    destruct ((-307 <=? k + 1) && (k + 1 <=? 308) && frac_eqb n d _ _) eqn:E.
    + apply andb_true_iff in E as [E E3]. apply andb_true_iff in E as [E1 E2].
      apply Z.leb_le in E1, E2. apply frac_eqb_iff in E3; auto.
      pose proof (pow10_double_rel (k + 1) ltac:(lia)) as R. rewrite <- E3 in R.
      apply Qabs_Qle_condition in R as [R1 R2].
      pose proof (p10_pos (k + 1)) as P.
      assert (S53 : (p2 (-53) <= p2 (-42))%Q) by (apply p2_le; lia).
      split.
      * change (p10 (k + 1) * (1 - p2 (-42)) <= frac n d)%Q. nra.
      * change (frac n d < p10 (k + 1 + 1))%Q. eapply Qlt_trans; [exact B|]. apply p10_lt. lia.
    + split; [|exact B]. change (p10 k * (1 - p2 (-42)) <= frac n d)%Q.
      pose proof (p10_pos k). nra.
  - intros k Hk. now apply elog_ref_pow10.
  - intros e He. cbn [l_pow10 libm_ref].
    destruct (Z.eq_dec e (-308)) as [->|Ne].
    { split; [vm_compute; reflexivity|]. vm_compute. discriminate. }
    assert (P : 0 < 10 ^ (- e)) by (apply Z.pow_pos_nonneg; lia).
    assert (F : (frac 1 (10 ^ (- e)) == p10 e)%Q).
    { symmetry. apply frac_unique; auto. rewrite <- p10_Z by lia.
      rewrite <- p10_plus. now replace (e + - e) with 0 by lia. }
    assert (A : (p2 (-1023) <= p10 e)%Q).
    { apply Qle_trans with (p10 (-307)); [|apply p10_le; lia]. vm_compute. discriminate. }
    assert (B : (p10 e < ovf)%Q).
    { apply Qlt_trans with (p10 1); [apply p10_lt; lia|]. vm_compute. reflexivity. }
    split.
    + apply round64_spec; auto; [lia|]. now rewrite F.
    + rewrite sfQ_val. pose proof (round64_rel false 1 (10 ^ (- e)) P ltac:(lia)) as R.
      rewrite F in R. specialize (R A B). cbn [sgnQ] in R.
      change (Qpower 10 e) with (p10 e). change (Qpower 2 (-50)) with (p2 (-50)).
      setoid_replace (val (round64 false 1 (10 ^ (- e))) - p10 e)%Q
        with (val (round64 false 1 (10 ^ (- e))) - 1 * p10 e)%Q by ring.
      eapply Qle_trans; [exact R|]. assert (p2 (-52) <= p2 (-50))%Q by (apply p2_le; lia).
      pose proof (p10_pos e). nra.
Qed.

(** ** Rounding up next to powers of ten *)

Lemma elog_close_spec n d : 0 < n -> 0 < d -> let k := floor_log10 n d in
  elog_close n d = (if Qlt_le_dec (frac n d) (p10 (k + 1) * (1 - p2 (-52))) then k else k + 1).
Proof.
  intros Hn Hd k. unfold elog_close. fold k.
  set (a := 10 ^ Z.max 0 (k + 1)). set (b := 10 ^ Z.max 0 (- (k + 1))).
  assert (Ha : 0 < a) by (apply Z.pow_pos_nonneg; lia). assert (Hb : 0 < b) by (apply Z.pow_pos_nonneg; lia).
  assert (P : (p10 (k + 1) == frac a b)%Q).
  { apply frac_unique; auto. unfold a, b. rewrite <- !p10_Z by lia. rewrite <- p10_plus.
    now replace (k + 1 + Z.max 0 (- (k + 1))) with (Z.max 0 (k + 1)) by lia. }
  assert (Q1 : (p10 (k + 1) * (1 - p2 (-52)) == frac ((2 ^ 52 - 1) * a) (2 ^ 52 * b))%Q).
  { rewrite P. apply frac_unique; [lia|]. rewrite !inject_Z_mult.
    assert ((1 - p2 (-52)) * inject_Z (2 ^ 52) == inject_Z (2 ^ 52 - 1))%Q as E by reflexivity.
    rewrite <- E. rewrite <- (frac_mul a b Hb). ring. }
  assert (L : (p10 (k + 1) * (1 - p2 (-52)) <= frac n d)%Q <-> (2 ^ 52 - 1) * (a * d) <= 2 ^ 52 * (n * b)).
  { rewrite Q1, frac_le_cross by (auto; lia). split; lia. }
  destruct (Z.leb_spec ((2 ^ 52 - 1) * (a * d)) (2 ^ 52 * (n * b))) as [H|H].
  - apply L in H. destruct (Qlt_le_dec _ _) as [C|C]; [lra|reflexivity].
  - destruct (Qlt_le_dec _ _) as [C|C]; [reflexivity|]. apply L in C. lia.
Qed.

Lemma libm_close_ok : libm_ok libm_close.
Proof.
  split.
  - intros n d Hn Hd e. change (inject_Z n / inject_Z d)%Q with (frac n d).
    destruct (floor_log10_spec n d Hn Hd) as [A B]. unfold e. cbn [l_elog libm_close]. rewrite elog_close_spec by auto.
    set (k := floor_log10 n d) in *. pose proof (p10_pos k). pose proof (p10_pos (k + 1)).
    assert (S42 : (p2 (-52) <= p2 (-42))%Q) by (apply p2_le; lia). pose proof (p2_pos (-42)).
    change (Qpower 2 (-42)) with (p2 (-42)).
    destruct (Qlt_le_dec _ _) as [C|C].
    + change (Qpower 10 k) with (p10 k). change (Qpower 10 (k + 1)) with (p10 (k + 1)). split; [nra|exact B].
    + change (Qpower 10 (k + 1)) with (p10 (k + 1)). change (Qpower 10 (k + 1 + 1)) with (p10 (k + 1 + 1)).
      split; [nra|]. eapply Qlt_trans; [exact B|]. apply p10_lt. lia.
  - intros k H f. unfold f. cbn [l_elog libm_close].
    pose proof (pow10_double_rel k H) as R. apply Qabs_Qle_condition in R as [R1 R2].
    pose proof (p10_pos k) as P. assert (S : (p2 (-53) <= 1 # 100)%Q) by (vm_compute; discriminate).
    pose proof (pow10_double_pos k H) as Np. pose proof (sf_den_pos (pow10_double false k)) as Dp.
    destruct (floor_log10_spec _ _ Np Dp) as [A B]. rewrite elog_close_spec by auto.
    fold (val (pow10_double false k)) in *. set (j := floor_log10 _ _) in *.
    assert (T : (p2 (-53) <= p2 (-52))%Q) by (apply p2_le; lia).
    destruct (Qlt_le_dec (val (pow10_double false k)) (p10 k)) as [L|L].
    + assert (j = k - 1) as ->.
      { apply (p10_bounds_unique j (k - 1) (val (pow10_double false k))); auto.
        - replace k with (k - 1 + 1) in P, R1 by lia. rewrite p10_succ in P, R1.
          replace (k - 1 + 1) with k in R1 by lia. nra.
        - now replace (k - 1 + 1) with k by lia. }
      replace (k - 1 + 1) with k by lia. destruct (Qlt_le_dec _ _) as [C|C]; [exfalso; nra|reflexivity].
    + assert (j = k) as ->.
      { apply (p10_bounds_unique j k (val (pow10_double false k))); auto. rewrite p10_succ. nra. }
      destruct (Qlt_le_dec _ _) as [C|C]; [reflexivity|]. exfalso. rewrite p10_succ in C.
      assert (p2 (-52) <= 1 # 100)%Q by (vm_compute; discriminate). nra.
  - exact (pow10_ok _ libm_ref_ok).
Qed.
