(** Proofs about writing real numbers. *)
From Coq Require Import Ascii String ZArith QArith Qabs Bool Lia Lqa List.
From Coq Require Import Floats.SpecFloat.
From Verif Require Import PyBase ProofPyBase PyFloat ProofFloat SpecFields ProofFields SpecFloat ProofFloatText
  ModelFortran ModelRecords ProofRecords SpecLibm ProofLibm.
Import ListNotations.
Open Scope Z_scope.

(** ** Doubles nearest to powers of ten *)

Definition L10 (k : Z) : Q := val (pow10_double false k).

Lemma L10_rel k : -307 <= k <= 308 -> (Qabs (L10 k - p10 k) <= p2 (-53) * p10 k)%Q.
Proof. apply pow10_double_rel. Qed.

Lemma L10_bounds k : -307 <= k <= 308 ->
  ((1 - p2 (-53)) * p10 k <= L10 k)%Q /\ (L10 k <= (1 + p2 (-53)) * p10 k)%Q.
Proof. intros H. pose proof (L10_rel k H) as R. apply Qabs_Qle_condition in R as [A B]. split; lra. Qed.

Lemma p2m53 : (p2 (-53) <= 1 # 1000)%Q. Proof. vm_compute. discriminate. Qed.

Lemma p10_le_scaled j k : j < k -> (10 * p10 j <= p10 k)%Q.
Proof. intros H. rewrite <- p10_succ. apply p10_le. lia. Qed.

Lemma L10_lt j k : -307 <= j -> j < k -> k <= 308 -> (L10 j < L10 k)%Q.
Proof.
  intros A B C. destruct (L10_bounds j ltac:(lia)) as [_ U]. destruct (L10_bounds k ltac:(lia)) as [D _].
  pose proof (p10_le_scaled j k B). pose proof (p10_pos j). pose proof p2m53. pose proof (p2_pos (-53)). nra.
Qed.

Lemma lit_eqs : lit_1em9 = pow10_double false (-9) /\ lit_1e10 = pow10_double false 10 /\
  lit_1em99 = pow10_double false (-99) /\ lit_1e100 = pow10_double false 100.
Proof. repeat split; reflexivity. Qed.

Lemma sf_le_frac_iff f n d : 0 < d -> sf_le_frac f n d = true <-> (val f <= frac n d)%Q.
Proof.
  intros H. unfold sf_le_frac, frac_leb, val. rewrite Z.leb_le. symmetry.
  apply frac_le_cross; auto. apply sf_den_pos.
Qed.
Lemma frac_lt_sf_iff f n d : 0 < d -> frac_lt_sf n d f = true <-> (frac n d < val f)%Q.
Proof.
  intros H. unfold frac_lt_sf, frac_ltb, val. rewrite Z.ltb_lt. symmetry.
  apply frac_lt_cross; auto. apply sf_den_pos.
Qed.

Lemma L10_limits : (p10 (-99) <= L10 (-99))%Q /\ (p10 (-9) <= L10 (-9))%Q /\
  (p10 10 <= L10 10)%Q /\ (p10 100 <= L10 100)%Q.
Proof. repeat split; vm_compute; discriminate. Qed.

Opaque L10 pow10_double.
Lemma exp_digits_cases n d : 0 < n -> 0 < d -> let v := frac n d in
  (exp_digits n d = 1%nat /\ (L10 (-9) <= v)%Q /\ (v < L10 10)%Q) \/
  (exp_digits n d = 2%nat /\ (L10 (-99) <= v)%Q /\ (v < L10 (-9))%Q) \/
  (exp_digits n d = 2%nat /\ (L10 10 <= v)%Q /\ (v < L10 100)%Q) \/
  (exp_digits n d = 3%nat /\ (v < L10 (-99))%Q) \/
  (exp_digits n d = 3%nat /\ (L10 100 <= v)%Q).
Proof.
  intros Hn Hd v. unfold exp_digits. destruct lit_eqs as (-> & -> & -> & ->).
  pose proof (sf_le_frac_iff (pow10_double false (-9)) n d Hd) as A.
  pose proof (frac_lt_sf_iff (pow10_double false 10) n d Hd) as B.
  pose proof (sf_le_frac_iff (pow10_double false (-99)) n d Hd) as C.
  pose proof (frac_lt_sf_iff (pow10_double false 100) n d Hd) as D.
  change (val (pow10_double false (-9))) with (L10 (-9)) in A. change (val (pow10_double false 10)) with (L10 10) in B.
  change (val (pow10_double false (-99))) with (L10 (-99)) in C. change (val (pow10_double false 100)) with (L10 100) in D.
  fold v in A, B, C, D.
  clearbody v.
  pose proof (L10_lt (-99) (-9) ltac:(lia) ltac:(lia) ltac:(lia)) as I1.
  pose proof (L10_lt (-9) 10 ltac:(lia) ltac:(lia) ltac:(lia)) as I2.
  pose proof (L10_lt 10 100 ltac:(lia) ltac:(lia) ltac:(lia)) as I3.
  set (l99 := L10 (-99)) in *. set (l9 := L10 (-9)) in *. set (u10 := L10 10) in *. set (u100 := L10 100) in *.
  clearbody l99 l9 u10 u100.
  destruct (Z.eqb_spec n 0); [lia|].
  destruct (sf_le_frac (pow10_double false (-9)) n d).
  - destruct A as [A _]. specialize (A eq_refl). destruct (frac_lt_sf n d (pow10_double false 10)); cbn [andb].
    + left. destruct B as [B _]. auto.
    + assert (u10 <= v)%Q by (destruct (Qlt_le_dec v u10) as [X|X]; [apply (proj2 B) in X; discriminate|exact X]).
      destruct (sf_le_frac (pow10_double false (-99)) n d).
      * destruct (frac_lt_sf n d (pow10_double false 100)); cbn [andb].
        -- right; right; left. destruct D as [D _]. auto.
        -- right; right; right; right. split; auto.
           destruct (Qlt_le_dec v u100) as [X|X]; [apply (proj2 D) in X; discriminate|exact X].
      * exfalso. destruct C as [_ C]. assert (false = true) by (apply C; lra). discriminate.
  - cbn [andb]. assert (v < l9)%Q as A' by (destruct (Qlt_le_dec v l9) as [X|X]; [exact X|apply (proj2 A) in X; discriminate]).
    destruct (sf_le_frac (pow10_double false (-99)) n d).
    + destruct C as [C _]. specialize (C eq_refl).
      assert (frac_lt_sf n d (pow10_double false 100) = true) as -> by (apply D; lra).
      right; left. auto.
    + right; right; right; left. split; [reflexivity|].
      destruct (Qlt_le_dec v l99) as [X|X]; [exact X|apply (proj2 C) in X; discriminate].
Qed.

(** ** The scaled mantissa *)

Lemma Qabs_le a b : (- b <= a)%Q -> (a <= b)%Q -> (Qabs a <= b)%Q.
Proof. intros. apply Qabs_Qle_condition. auto. Qed.

Definition plain (v : num) : Prop :=
  match v with NInt _ => True | NFlt f => is_finite f = true | NEndf _ _ => False end.

(** absolute value of a number *)
Definition absv (v : num) : Q := frac (Z.abs (num_num v)) (num_den v).

Lemma num_den_pos v : 0 < num_den v.
Proof. destruct v; cbn; try lia; apply sf_den_pos. Qed.

Definition in_range (x : Q) : Prop := (p2 (-1022) <= x)%Q /\ (x < 2 * p10 308)%Q.

Lemma quotient_rel lm v y e : (0 < v)%Q -> (0 < y)%Q -> (Qabs (y - p10 e) <= p10 e * p2 (-50))%Q ->
  lm = (v * p10 (- e))%Q -> (Qabs (v / y - lm) <= p2 (-49) * lm)%Q /\ (0 < v / y)%Q.
Proof.
  intros Hv Hy R ->. apply Qabs_Qle_condition in R as [R1 R2]. pose proof (p10_pos e) as P.
  pose proof (p10_opp e) as O. pose proof (p10_pos (- e)) as P'.
  assert (C50 : (p2 (-49) == 2 * p2 (-50))%Q) by reflexivity.
  assert (C : (p2 (-50) <= 1 # 10)%Q) by (vm_compute; discriminate). pose proof (p2_pos (-50)) as P50.
  set (t := (v / y)%Q). assert (T : (t * y == v)%Q) by (unfold t; field; lra).
  assert (Tp : (0 < t)%Q) by (unfold t; apply Qlt_shift_div_l; lra).
  split; [|exact Tp]. set (c := p2 (-50)) in *. rewrite C50.
  (* multiply by p10 e *)
  assert (K : forall x, (x * p10 e <= 0)%Q -> (x <= 0)%Q).
  { intros x X. destruct (Qlt_le_dec 0 x) as [Y|Y]; [|exact Y].
    pose proof (Qmult_lt_0_compat _ _ Y P). lra. }
  assert (V : (v * p10 (- e) * p10 e == v)%Q) by (rewrite <- Qmult_assoc, O; ring).
  set (E := p10 e) in *. clearbody E c. set (m := (v * p10 (- e))%Q) in *.
  apply Qabs_le.
  - assert (m - t - 2 * c * m <= 0)%Q; [|lra]. apply K.
    setoid_replace ((m - t - 2 * c * m) * E)%Q with (m * E * (1 - 2 * c) - t * E)%Q by ring.
    rewrite V, <- T. clearbody m t.
    (* t*y*(1-2c) <= t*E ; y <= E(1+c) *)
    assert (y * (1 - 2 * c) <= E)%Q by nra. nra.
  - assert (t - m - 2 * c * m <= 0)%Q; [|lra]. apply K.
    setoid_replace ((t - m - 2 * c * m) * E)%Q with (t * E - m * E * (1 + 2 * c))%Q by ring.
    rewrite V, <- T. assert (E <= y * (1 + 2 * c))%Q; [|nra].
    assert (E * (1 - c) <= y)%Q by lra. nra.
Qed.

Lemma mantissa_spec lm v : libm_ok lm -> plain v -> num_num v <> 0 -> in_range (absv v) ->
  let e := l_elog lm (Z.abs (num_num v)) (num_den v) in
  let a := (absv v * p10 (- e))%Q in
  -308 <= e <= 308 /\ (1 - p2 (-42) <= a)%Q /\ (a < 10)%Q /\
  exists mu, scaled_mantissa lm v e = Ok mu /\ 0 <= sf_num mu /\ (Qabs (val mu - a) <= p2 (-48) * a)%Q.
Proof.
  intros LM Pl Nz [R1 R2] e a.
  pose proof (num_den_pos v) as Dp. assert (Np : 0 < Z.abs (num_num v)) by lia.
  destruct (elog_ok lm LM _ _ Np Dp) as [E1 E2]. fold e in E1, E2.
  change (inject_Z (Z.abs (num_num v)) / inject_Z (num_den v))%Q with (absv v) in E1, E2.
  change (Qpower 10 e) with (p10 e) in E1. change (Qpower 10 (e + 1)) with (p10 (e + 1)) in E2.
  change (Qpower 2 (-42)) with (p2 (-42)) in E1.
  assert (C42 : (p2 (-42) <= 1 # 100)%Q) by (vm_compute; discriminate).
  pose proof (p2_pos (-42)) as P42.
  pose proof (p10_opp e) as O. pose proof (p10_pos e) as Pe. pose proof (p10_pos (- e)) as Pe'.
  assert (Vp : (0 < absv v)%Q) by (now apply frac_pos).
  assert (A1 : (1 - p2 (-42) <= a)%Q).
  { unfold a. setoid_replace (1 - p2 (-42))%Q with (p10 e * (1 - p2 (-42)) * p10 (- e))%Q.
    - apply Qmult_le_compat_r; [exact E1|lra].
    - setoid_replace (p10 e * (1 - p2 (-42)) * p10 (- e))%Q with ((1 - p2 (-42)) * (p10 (-e) * p10 e))%Q by ring.
      rewrite O. ring. }
  assert (A2 : (a < 10)%Q).
  { unfold a. setoid_replace 10%Q with (p10 (e + 1) * p10 (- e))%Q.
    - apply Qmult_lt_r; auto.
    - rewrite <- p10_plus. replace (e + 1 + - e) with 1 by lia. reflexivity. }
  assert (Er : -308 <= e <= 308).
  { split.
    - assert (p10 (-308) < p10 (e + 1))%Q as X; [|apply p10_lt_inv in X; lia].
      eapply Qle_lt_trans; [|exact E2]. eapply Qle_trans; [|exact R1]. vm_compute. discriminate.
    - assert (p10 e < p10 309)%Q as X; [|apply p10_lt_inv in X; lia].
      assert (p10 309 == 10 * p10 308)%Q as Y by reflexivity. nra. }
  split; [exact Er|]. split; [exact A1|]. split; [exact A2|].
  assert (C1 : (p2 (-49) <= 1 # 100)%Q) by (vm_compute; discriminate).
  assert (LO : (p2 (-1022) <= (1 # 2))%Q) by (vm_compute; discriminate).
  assert (HI : (20 < ovf)%Q) by (vm_compute; reflexivity).
  (* a division by something close to 10^e *)
  assert (Div : forall y n d, (0 < y)%Q -> (Qabs (y - p10 e) <= p10 e * p2 (-50))%Q ->
      0 < n -> 0 < d -> (frac n d == absv v / y)%Q ->
      0 <= sf_num (round64 false n d) /\ (Qabs (val (round64 false n d) - a) <= p2 (-48) * a)%Q).
  { intros y n d Hy Ry Hn Hd F.
    destruct (quotient_rel a (absv v) y e Vp Hy Ry eq_refl) as [QR QP].
    rewrite <- F in QR, QP. apply Qabs_Qle_condition in QR as [Q1 Q2].
    pose proof (p2_pos (-49)) as P49.
    assert (F1 : (p2 (-1022) <= frac n d)%Q) by nra.
    assert (F2 : (frac n d < ovf)%Q) by nra.
    pose proof (round64_rel_normal false n d Hd Hn F1 F2) as RR. cbn [sgnQ] in RR.
    apply Qabs_Qle_condition in RR as [RR1 RR2].
    assert (C48 : (p2 (-48) == 2 * p2 (-49))%Q) by reflexivity.
    assert (C53 : (p2 (-53) == (1 # 16) * p2 (-49))%Q) by reflexivity.
    set (c := p2 (-49)) in *. rewrite C53 in RR1, RR2.
    assert (FU : (frac n d <= 2 * a)%Q) by nra.
    split.
    - apply val_num_sign. nra.
    - rewrite C48. apply Qabs_le; nra. }
  destruct v as [z|f|f o]; [| |contradiction].
  - (* integer *)
    cbn [scaled_mantissa num_num num_den] in *. destruct (Z.leb_spec 0 e) as [He|He].
    + eexists. split; [reflexivity|]. assert (PZ : 0 < 10 ^ e) by (apply Z.pow_pos_nonneg; lia).
      apply (Div (p10 e)); auto.
      * setoid_replace (p10 e - p10 e)%Q with 0%Q by ring. cbn [Qabs Z.abs Qnum].
        change (Qabs 0) with 0%Q. pose proof (p2_pos (-50)). nra.
      * symmetry. apply frac_unique; auto. rewrite <- p10_Z by lia. unfold absv. cbn [num_num num_den].
        unfold frac. change (inject_Z 1) with 1%Q. field. lra.
    + exfalso. assert (absv (NInt z) == inject_Z (Z.abs z))%Q as X.
      { unfold absv, frac. cbn [num_num num_den]. change (inject_Z 1) with 1%Q. field. }
      assert (1 <= absv (NInt z))%Q as Y.
      { rewrite X. change 1%Q with (inject_Z 1). apply iz_le. lia. }
      assert (p10 (e + 1) <= p10 0)%Q as W by (apply p10_le; lia). change (p10 0) with 1%Q in W. lra.
  - cbn [scaled_mantissa num_num num_den] in *.
    assert (exists y, (if 0 <=? e then round64 false (10 ^ e) 1 else l_pow10 lm e) = y /\ 0 < sf_num y /\
        (Qabs (val y - p10 e) <= p10 e * p2 (-50))%Q) as (y & Ey & Yp & Yr).
    { assert (C50 : (p2 (-50) <= 1 # 2)%Q) by (vm_compute; discriminate).
      assert (Pos : forall y, (Qabs (val y - p10 e) <= p10 e * p2 (-50))%Q -> 0 < sf_num y).
      { intros y Y. apply Qabs_Qle_condition in Y as [Y1 Y2].
        assert (0 < val y)%Q as V by nra.
        assert (0 <= sf_num y) as N by (apply val_num_sign; lra).
        destruct (Z.eq_dec (sf_num y) 0) as [E|]; [|lia].
        exfalso. unfold val in V. rewrite E in V. unfold frac in V. change (inject_Z 0) with 0%Q in V.
        unfold Qdiv in V. lra. }
      destruct (Z.leb_spec 0 e) as [He|He].
      - eexists. split; [reflexivity|].
        assert (Y : (Qabs (val (round64 false (10 ^ e) 1) - p10 e) <= p10 e * p2 (-50))%Q).
        { assert (PZ : 0 < 10 ^ e) by (apply Z.pow_pos_nonneg; lia).
          assert (F : (frac (10 ^ e) 1 == p10 e)%Q).
          { symmetry. apply frac_unique; [lia|]. rewrite p10_Z by lia. change (inject_Z 1) with 1%Q. ring. }
          pose proof (round64_rel_normal false (10 ^ e) 1 ltac:(lia) PZ) as RR. rewrite F in RR.
          destruct (p10_range e ltac:(lia)) as [X1 X2]. specialize (RR X1 X2). cbn [sgnQ] in RR.
          setoid_replace (val (round64 false (10 ^ e) 1) - p10 e)%Q
            with (val (round64 false (10 ^ e) 1) - 1 * p10 e)%Q by ring.
          eapply Qle_trans; [exact RR|]. assert (p2 (-53) <= p2 (-50))%Q by (apply p2_le; lia). nra. }
        split; [now apply Pos|exact Y].
      - exists (l_pow10 lm e). split; [reflexivity|].
        destruct (pow10_ok lm LM e ltac:(lia)) as [_ Y]. rewrite sfQ_val in Y.
        change (Qpower 10 e) with (p10 e) in Y. change (Qpower 2 (-50)) with (p2 (-50)) in Y.
        split; [now apply Pos|exact Y]. }
    rewrite Ey. destruct (Z.eqb_spec (sf_num y) 0); [lia|].
    eexists. split; [reflexivity|].
    pose proof (sf_den_pos y) as Dy.
    assert (VY : (0 < val y)%Q) by (unfold val; now apply frac_pos).
    apply (Div (val y)); auto; [nia|nia|].
    symmetry. apply frac_unique; [nia|]. unfold absv, val, frac. cbn [num_num num_den].
    rewrite !inject_Z_mult. pose proof (iz_pos _ Yp). pose proof (iz_pos _ Dy). pose proof (iz_pos _ Dp).
    field. repeat split; lra.
Qed.

(** ** The printed digits *)

Lemma printed_digits mu a p : (1 - p2 (-42) <= a)%Q -> (a < 10)%Q -> 0 <= sf_num mu ->
  (Qabs (val mu - a) <= p2 (-48) * a)%Q -> (p <= 12)%nat ->
  let P := 10 ^ Z.of_nat p in let N := rhe (sf_num mu * P) (sf_den mu) in
  P <= N <= 10 * P /\ (Qabs (inject_Z N - a * inject_Z P) <= (1 # 2) + p2 (-48) * (a * inject_Z P))%Q.
Proof.
  intros A1 A2 Mn MR Hp P N. assert (Pp : 0 < P) by (apply Z.pow_pos_nonneg; lia).
  assert (Pu : P <= 10 ^ 12) by (apply Z.pow_le_mono_r; lia).
  pose proof (sf_den_pos mu) as Dp. pose proof (rhe_frac (sf_num mu * P) (sf_den mu) Dp) as R. fold N in R.
  assert (F : (frac (sf_num mu * P) (sf_den mu) == val mu * inject_Z P)%Q).
  { symmetry. apply frac_unique; auto. rewrite inject_Z_mult. unfold val.
    setoid_replace (frac (sf_num mu) (sf_den mu) * inject_Z P * inject_Z (sf_den mu))%Q
      with (frac (sf_num mu) (sf_den mu) * inject_Z (sf_den mu) * inject_Z P)%Q by ring.
    rewrite frac_mul by auto. ring. }
  rewrite F in R. pose proof (iz_pos P Pp) as QP.
  assert (QU : (inject_Z P <= 1000000000000)%Q).
  { change 1000000000000%Q with (inject_Z (10 ^ 12)). now apply iz_le. }
  assert (C48 : (p2 (-48) == 1 # 281474976710656)%Q) by reflexivity.
  assert (C42 : (p2 (-42) == 1 # 4398046511104)%Q) by reflexivity.
  rewrite C48 in *. rewrite C42 in *. apply Qabs_Qle_condition in R as [R1 R2].
  apply Qabs_Qle_condition in MR as [M1 M2].
  set (x := inject_Z P) in *. set (m := val mu) in *.
  assert (B1 : (m * x <= a * x + (1 # 281474976710656) * (a * x))%Q) by nra.
  assert (B2 : (a * x - (1 # 281474976710656) * (a * x) <= m * x)%Q) by nra.
  assert (B3 : ((1 - (1 # 4398046511104)) * x <= a * x)%Q) by nra.
  assert (B4 : (a * x < 10 * x)%Q) by nra.
  split; [split|].
  - assert (inject_Z (P - 1) < inject_Z N)%Q as X; [|apply (proj1 (iz_lt _ _)) in X; lia].
    assert (inject_Z (P - 1) == x - 1)%Q as ->.
    { unfold Z.sub. rewrite inject_Z_plus, inject_Z_opp. unfold x. change (inject_Z 1) with 1%Q. ring. }
    lra.
  - assert (inject_Z N < inject_Z (10 * P + 1))%Q as X; [|apply (proj1 (iz_lt _ _)) in X; lia].
    assert (inject_Z (10 * P + 1) == 10 * x + 1)%Q as ->.
    { rewrite inject_Z_plus, inject_Z_mult. unfold x. change (inject_Z 1) with 1%Q. change (inject_Z 10) with 10%Q. ring. }
    lra.
  - apply Qabs_le; lra.
Qed.

(** ** The exponential form as a string *)

Definition b2n (b : bool) : nat := if b then 1%nat else 0%nat.
Definition is_pos (v : num) : bool := 0 <=? num_num v.
(** columns taken by the sign *)
Definition sign_cols (wo : wopts) (v : num) : nat := b2n (negb (w_abuse wo && is_pos v)).
(** decimal places of the mantissa *)
Definition places (wo : wopts) (v : num) (nexp : nat) : nat :=
  (w_width wo - 3 - nexp - sign_cols wo v - b2n (w_keepE wo))%nat.
Definition sign_text (wo : wopts) (v : num) : str :=
  if is_pos v then (if w_abuse wo then [] else $" ") else $"-".
Definition bare_sign (v : num) : str := if is_pos v then [] else $"-".
Definition exp_mark (wo : wopts) : str := if w_keepE wo then $"E" else [].
Definition exp_sign (e : Z) : str := if 0 <=? e then $"+" else $"-".
Definition exp_string (wo : wopts) (v : num) (p : nat) (N e : Z) (nexp : nat) : str :=
  sign_text wo v ++ fixed_digits p N ++ exp_mark wo ++ exp_sign e ++ rjust nexp (str_of_nonneg (Z.abs e)).
Definition exp_text (wo : wopts) (v : num) (p : nat) (N e : Z) : str :=
  bare_sign v ++ fixed_digits p N ++ exp_mark wo ++ exp_sign e ++ str_of_nonneg (Z.abs e).
Definition exp_retry (wo : wopts) (v : num) (p : nat) (N e : Z) (nexp : nat) : str :=
  sign_text wo v ++ fixed_digits p N ++ $"e" ++ exp_sign e ++ rjust nexp (str_of_nonneg (Z.abs e)).

Definition wide_ok (wo : wopts) : Prop := (9 <= w_width wo <= 15)%nat.

Lemma sign_cols_le wo v : (sign_cols wo v <= 1)%nat.
Proof. unfold sign_cols, b2n. destruct (negb _); lia. Qed.
Lemma keepE_le wo : (b2n (w_keepE wo) <= 1)%nat.
Proof. unfold b2n. destruct (w_keepE wo); lia. Qed.

Lemma places_bounds wo v nexp : wide_ok wo -> (1 <= nexp <= 3)%nat -> (1 <= places wo v nexp <= 11)%nat /\
  (places wo v nexp + 3 + nexp + sign_cols wo v + b2n (w_keepE wo) = w_width wo)%nat.
Proof.
  unfold wide_ok, places. intros W N. pose proof (sign_cols_le wo v). pose proof (keepE_le wo). lia.
Qed.

Lemma sign_text_length wo v : length (sign_text wo v) = sign_cols wo v.
Proof.
  unfold sign_text, sign_cols, b2n. destruct (is_pos v); destruct (w_abuse wo); reflexivity.
Qed.
Lemma exp_mark_length wo : length (exp_mark wo) = b2n (w_keepE wo).
Proof. unfold exp_mark, b2n. destruct (w_keepE wo); reflexivity. Qed.

Lemma str_of_Z_abs e : str_of_Z (Z.abs e) = str_of_nonneg (Z.abs e).
Proof. unfold str_of_Z. destruct (Z.ltb_spec (Z.abs e) 0); [lia|reflexivity]. Qed.

(** one unfolding *)
Definition expform_body (wo : wopts) (v : num) (mu : spec_float) (e : Z) (nexp : nat)
  (again : spec_float -> result str) : result str :=
  let p := places wo v nexp in
  let N := rhe (sf_num mu * 10 ^ Z.of_nat p) (sf_den mu) in
  let s := exp_string wo v p N e nexp in
  if (w_width wo <? length s)%nat then
    match float_of_str (exp_retry wo v p N e nexp) with
    | Some f => again f
    | None => Err ValueError
    end
  else Ok s.

Lemma expform_unfold fuel wo v mu : wide_ok wo ->
  let n := Z.abs (num_num v) in let d := num_den v in
  let nexp := exp_digits n d in
  let e := if n =? 0 then 0 else l_elog (w_libm wo) n d in
  (1 <= nexp <= 3)%nat ->
  scaled_mantissa (w_libm wo) v e = Ok mu ->
  float2expformstr_fuel (S fuel) wo v =
  expform_body wo v mu e nexp (fun f => float2expformstr_fuel fuel wo (NFlt f)).
Proof.
  intros W n d nexp e Ne SM. destruct (places_bounds wo v nexp W Ne) as [Pb Pe].
  cbn [float2expformstr_fuel]. fold n d. fold nexp. fold e. rewrite SM. cbn [bind].
  assert (ML : Z.of_nat (w_width wo) - 1 - Z.of_nat nexp
     - (if w_abuse wo && (0 <=? num_num v) then 0 else 1) - (if w_keepE wo then 1 else 0)
     = Z.of_nat (places wo v nexp) + 2).
  { unfold sign_cols, b2n, is_pos in Pe. destruct (w_abuse wo && (0 <=? num_num v)); destruct (w_keepE wo); cbn [negb] in Pe; lia. }
  rewrite ML. destruct (Z.ltb_spec (Z.of_nat (places wo v nexp) + 2) 2); [lia|].
  replace (Z.to_nat (Z.of_nat (places wo v nexp) + 2 - 2)) with (places wo v nexp) by lia.
  rewrite str_of_Z_abs. unfold expform_body, exp_string, exp_retry, sign_text, exp_mark, exp_sign, format_f, is_pos.
  reflexivity.
Qed.

(** lengths *)
Lemma fixed_digits_length p N : (1 <= p)%nat -> 0 <= N ->
  length (fixed_digits p N) = (ndigits (N / 10 ^ Z.of_nat p) + 1 + p)%nat.
Proof.
  intros Hp HN. unfold fixed_digits. rewrite app_length, length_str_of_nonneg.
  destruct p; [lia|]. cbn [length]. rewrite digits_fixed_length. lia.
Qed.

Lemma exp_string_length wo v p N e nexp : (1 <= p)%nat -> 0 <= N ->
  length (exp_string wo v p N e nexp) =
  (sign_cols wo v + (ndigits (N / 10 ^ Z.of_nat p) + 1 + p) + b2n (w_keepE wo) + 1
   + Nat.max nexp (ndigits (Z.abs e)))%nat.
Proof.
  intros Hp HN. unfold exp_string. rewrite !app_length, sign_text_length, fixed_digits_length, exp_mark_length by auto.
  assert (length (exp_sign e) = 1%nat) as -> by (unfold exp_sign; destruct (0 <=? e); reflexivity).
  rewrite length_rjust, length_str_of_nonneg. lia.
Qed.

Lemma ndigits_small n : 0 <= n < 10 -> ndigits n = 1%nat.
Proof. intros H. pose proof (ndigits_pos n). pose proof (ndigits_le n 1 ltac:(lia) ltac:(lia)) as X. change (10 ^ Z.of_nat 1) with 10 in X. lia. Qed.

(** text *)
Lemma digits_value_app_fixed a p b : 0 <= b < 10 ^ Z.of_nat p -> all_digits a ->
  digits_value (a ++ digits_fixed p b) = digits_value a * 10 ^ Z.of_nat p + b.
Proof.
  intros Hb Ha. unfold digits_value. rewrite fold_left_app.
  assert (G : forall w n acc, 0 <= n -> fold_left (fun a c => 10 * a + digit_val c) (digits_fixed w n) acc
     = acc * 10 ^ Z.of_nat w + n mod 10 ^ Z.of_nat w).
  { intros w n acc Hn. pose proof (digits_fixed_val_acc w n acc Hn) as X.
    pose proof (digits_val_acc_fold (digits_fixed w n) acc (digits_fixed_digits w n)) as Y.
    rewrite Y in X. injection X. auto. }
  rewrite G by lia. rewrite Z.mod_small by lia. reflexivity.
Qed.

Lemma fixed_digits_parts p N : (1 <= p)%nat -> 0 <= N ->
  exists ip fp, fixed_digits p N = ip ++ $"." ++ fp /\ all_digits ip /\ all_digits fp /\ ip <> [] /\ fp <> [] /\
    length fp = p /\ digits_value (ip ++ fp) = N.
Proof.
  intros Hp HN. assert (0 < 10 ^ Z.of_nat p) by (apply Z.pow_pos_nonneg; lia).
  exists (str_of_nonneg (N / 10 ^ Z.of_nat p)), (digits_fixed p (N mod 10 ^ Z.of_nat p)).
  assert (M : 0 <= N mod 10 ^ Z.of_nat p < 10 ^ Z.of_nat p) by (apply Z.mod_pos_bound; auto).
  assert (D : 0 <= N / 10 ^ Z.of_nat p) by (apply Z.div_pos; lia).
  split; [|split; [|split; [|split; [|split; [|split]]]]].
  - unfold fixed_digits. destruct p; [lia|reflexivity].
  - apply str_of_nonneg_digits.
  - apply digits_fixed_digits.
  - apply str_of_nonneg_nonnil.
  - intros X. apply (f_equal (@length ascii)) in X. rewrite digits_fixed_length in X. cbn in X. lia.
  - apply digits_fixed_length.
  - rewrite digits_value_app_fixed by (auto using str_of_nonneg_digits). rewrite str_of_nonneg_value by auto.
    pose proof (Z.div_mod N (10 ^ Z.of_nat p) ltac:(lia)). lia.
Qed.

Lemma exponent_any (mark : str) (b : bool) e : mark = [] /\ b = true \/ (mark = $"E" \/ mark = $"e") /\ b = false ->
  exponent_text b (mark ++ exp_sign e ++ str_of_nonneg (Z.abs e)) e.
Proof.
  intros M. assert (Ds : digit_string (str_of_nonneg (Z.abs e))) by (apply digit_string_all, str_of_nonneg_digits).
  pose proof (str_of_nonneg_nonnil (Z.abs e)) as Nn.
  pose proof (str_of_nonneg_value (Z.abs e) ltac:(lia)) as V.
  assert (Hs : exp_sign e = $"+" \/ exp_sign e = $"-") by (unfold exp_sign; destruct (0 <=? e); auto).
  assert (Ev : (if str_eqb (exp_sign e) $"-" then - digits_value (str_of_nonneg (Z.abs e))
     else digits_value (str_of_nonneg (Z.abs e))) = e).
  { rewrite V. unfold exp_sign. destruct (Z.leb_spec 0 e); cbn; lia. }
  rewrite <- Ev at 3. destruct M as [[-> ->]|[M ->]].
  - apply (SpecFloat.exp_bare (exp_sign e) (str_of_nonneg (Z.abs e))); auto.
  - destruct M as [-> | ->]; apply (exp_letter _ (exp_sign e) (str_of_nonneg (Z.abs e))); auto; tauto.
Qed.

Definition sgn_of (v : num) : bool := negb (is_pos v).

Lemma bare_sign_cases v : bare_sign v = [] /\ sgn_of v = false \/ bare_sign v = $"+" /\ sgn_of v = false \/
  bare_sign v = $"-" /\ sgn_of v = true.
Proof. unfold bare_sign, sgn_of. destruct (is_pos v); auto. Qed.

Lemma exp_text_ok wo v p N e : (1 <= p)%nat -> 0 <= N ->
  fortran_text (exp_text wo v p N e) (sgn_of v) N (e - Z.of_nat p).
Proof.
  intros Hp HN. destruct (fixed_digits_parts p N Hp HN) as (ip & fp & E & Di & Df & Ni & Nf & Lf & V).
  exists (bare_sign v), ip, $".", fp, (negb (w_keepE wo)), (exp_mark wo ++ exp_sign e ++ str_of_nonneg (Z.abs e)), e.
  split; [unfold exp_text; rewrite E, <- !app_assoc; reflexivity|].
  split; [apply bare_sign_cases|]. split; [now apply digit_string_all|]. split; [now apply digit_string_all|].
  split; [destruct ip; [contradiction|discriminate]|]. split; [right; auto|].
  split; [|split; [auto|now rewrite Lf]].
  apply exponent_any. unfold exp_mark. destruct (w_keepE wo); auto.
Qed.

Lemma sign_text_bare wo v : exists w1, all_ws w1 /\ sign_text wo v = w1 ++ bare_sign v /\
  remove_chr " "%char (sign_text wo v) = bare_sign v.
Proof.
  unfold sign_text, bare_sign. destruct (is_pos v); [destruct (w_abuse wo)|].
  - exists []. repeat split; constructor.
  - exists $" ". repeat split; repeat constructor.
  - exists []. repeat split; constructor.
Qed.

Lemma remove_chr_app c a b : remove_chr c (a ++ b) = remove_chr c a ++ remove_chr c b.
Proof. unfold remove_chr. apply filter_app. Qed.
Lemma remove_spaces n : remove_chr " "%char (spaces n) = [].
Proof. induction n; auto. Qed.

Lemma fixed_digits_fstr p N : (1 <= p)%nat -> 0 <= N -> fstr (fixed_digits p N).
Proof.
  intros Hp HN. destruct (fixed_digits_parts p N Hp HN) as (ip & fp & -> & Di & Df & _).
  rewrite !fstr_app. repeat split; auto using fstr_digits. repeat constructor.
Qed.

Lemma exp_string_nospace wo v p N e nexp : (1 <= p)%nat -> 0 <= N ->
  remove_chr " "%char (exp_string wo v p N e nexp) = exp_text wo v p N e.
Proof.
  intros Hp HN. unfold exp_string, exp_text, rjust. rewrite !remove_chr_app, remove_spaces.
  destruct (sign_text_bare wo v) as (w1 & _ & _ & ->).
  rewrite (remove_space_fstr (fixed_digits p N)) by now apply fixed_digits_fstr.
  rewrite (remove_space_fstr (exp_mark wo)) by (unfold exp_mark; destruct (w_keepE wo); repeat constructor).
  rewrite (remove_space_fstr (exp_sign e)) by (unfold exp_sign; destruct (0 <=? e); repeat constructor).
  rewrite (remove_space_fstr (str_of_nonneg (Z.abs e))) by (apply fstr_digits, str_of_nonneg_digits). reflexivity.
Qed.

Lemma rjust_wide n s : (n <= length s)%nat -> rjust n s = s.
Proof. intros H. unfold rjust. replace (n - length s)%nat with 0%nat by lia. reflexivity. Qed.

(** reading the exponential form back *)
Lemma read_exp_string ro wo v p N e nexp : (1 <= p)%nat -> 0 <= N ->
  (length (exp_string wo v p N e nexp) <= r_width ro)%nat ->
  (r_spaces ro = true \/ (nexp <= ndigits (Z.abs e))%nat) ->
  let s := exp_string wo v p N e nexp in
  let f := round64 (sgn_of v) (dec_num N (e - Z.of_nat p)) (dec_den (e - Z.of_nat p)) in
  read_fort_float ro s = Ok (if r_preserve ro then NEndf f s else NFlt f).
Proof.
  intros Hp HN L C s f. apply (read_fortran ro s (exp_text wo v p N e)); auto.
  - now apply exp_text_ok.
  - destruct (r_spaces ro) eqn:RS.
    + exists [], []. split; [constructor|]. split; [constructor|]. unfold s.
      rewrite exp_string_nospace, app_nil_r by auto. reflexivity.
    + destruct C as [C|C]; [discriminate|]. destruct (sign_text_bare wo v) as (w1 & W1 & E & _).
      exists w1, []. split; [exact W1|]. split; [constructor|]. unfold s, exp_string, exp_text.
      rewrite E, rjust_wide, app_nil_r, <- !app_assoc by (now rewrite length_str_of_nonneg). reflexivity.
Qed.

(** the retry of fortran_utils.py 148-150 *)
Lemma retry_value wo v p N e nexp : (1 <= p)%nat -> 0 <= N -> (nexp <= ndigits (Z.abs e))%nat ->
  float_of_str (exp_retry wo v p N e nexp) =
  Some (round64 (sgn_of v) (dec_num N (e - Z.of_nat p)) (dec_den (e - Z.of_nat p))).
Proof.
  intros Hp HN C. destruct (fixed_digits_parts p N Hp HN) as (ip & fp & E & Di & Df & Ni & Nf & Lf & V).
  destruct (sign_text_bare wo v) as (w1 & W1 & Es & _). unfold exp_retry.
  rewrite E, Es, rjust_wide by (now rewrite length_str_of_nonneg).
  pose proof (float_of_str_text w1 [] (bare_sign v) (sgn_of v) ip $"." fp
    ($"e" ++ exp_sign e ++ str_of_nonneg (Z.abs e)) e W1 ltac:(constructor) (bare_sign_cases v) Di Df) as X.
  cbv zeta in X. rewrite V, Lf in X. rewrite <- X; auto.
  - f_equal. rewrite <- !app_assoc, ?app_nil_r. reflexivity.
  - destruct ip; [contradiction|discriminate].
  - apply exponent_any. auto.
Qed.

(** ** The exponent and the space reserved for it *)

Lemma nd1 e : Z.abs e < 10 -> ndigits (Z.abs e) = 1%nat.
Proof. intros H. apply ndigits_small. lia. Qed.
Lemma nd_exact n k : (1 <= k)%nat -> 10 ^ (Z.of_nat k - 1) <= n < 10 ^ Z.of_nat k -> ndigits n = k.
Proof.
  intros Hk [A B]. assert (0 < 10 ^ (Z.of_nat k - 1)) by (apply Z.pow_pos_nonneg; lia).
  pose proof (ndigits_le n k ltac:(lia) Hk B).
  destruct (Nat.le_gt_cases k (ndigits n)); [lia|].
  pose proof (ndigits_le_inv n (k - 1) ltac:(lia) ltac:(lia)) as X.
  replace (Z.of_nat (k - 1)) with (Z.of_nat k - 1) in X by lia. lia.
Qed.
Lemma nd2 e : 10 <= Z.abs e < 100 -> ndigits (Z.abs e) = 2%nat.
Proof. intros H. apply nd_exact; [lia|]. cbn. lia. Qed.
Lemma nd3 e : 100 <= Z.abs e < 1000 -> ndigits (Z.abs e) = 3%nat.
Proof. intros H. apply nd_exact; [lia|]. cbn. lia. Qed.

Lemma below_L10 e j v : -307 <= j <= 308 -> (p10 e * (1 - p2 (-42)) <= v)%Q -> (v < L10 j)%Q -> e <= j.
Proof.
  intros Hj A B. destruct (Z.le_gt_cases e j) as [|G]; auto. exfalso.
  destruct (L10_bounds j Hj) as [_ U]. pose proof (p10_le_scaled j e G). pose proof (p10_pos j).
  pose proof p2m53. assert (p2 (-42) <= 1 # 100)%Q by (vm_compute; discriminate).
  pose proof (p2_pos (-42)). nra.
Qed.
Lemma above_L10 e j v : (p10 j <= L10 j)%Q -> (L10 j <= v)%Q -> (v < p10 (e + 1))%Q -> j <= e.
Proof.
  intros A B C. assert (p10 j < p10 (e + 1))%Q as X by lra. apply p10_lt_inv in X. lia.
Qed.

Lemma classify n d e : 0 < n -> 0 < d -> -308 <= e <= 308 ->
  let v := frac n d in (p10 e * (1 - p2 (-42)) <= v)%Q -> (v < p10 (e + 1))%Q ->
  ndigits (Z.abs e) = exp_digits n d \/
  ((e = -9 \/ e = -99) /\ (ndigits (Z.abs e) < exp_digits n d)%nat /\ (v < L10 e)%Q) \/
  ((e = 10 \/ e = 100) /\ (exp_digits n d < ndigits (Z.abs e))%nat /\ (v < L10 e)%Q).
Proof.
  intros Hn Hd He v A B. destruct L10_limits as (M1 & M2 & M3 & M4).
  assert (lo : forall j, -307 <= j <= 308 -> (v < L10 j)%Q -> e <= j) by (intros; eapply below_L10; eauto).
  destruct (exp_digits_cases n d Hn Hd) as [(-> & X & Y)|[(-> & X & Y)|[(-> & X & Y)|[(-> & X)|(-> & X)]]]]; fold v in X; try fold v in Y.
  - pose proof (above_L10 e (-9) v M2 X B). pose proof (lo 10 ltac:(lia) Y).
    destruct (Z.eq_dec e 10) as [->|].
    + right; right. rewrite nd2 by lia. repeat split; auto.
    + left. apply nd1. lia.
  - pose proof (above_L10 e (-99) v M1 X B). pose proof (lo (-9) ltac:(lia) Y).
    destruct (Z.eq_dec e (-9)) as [->|].
    + right; left. rewrite nd1 by lia. repeat split; auto.
    + left. apply nd2. lia.
  - pose proof (above_L10 e 10 v M3 X B). pose proof (lo 100 ltac:(lia) Y).
    destruct (Z.eq_dec e 100) as [->|].
    + right; right. rewrite nd3 by lia. repeat split; auto.
    + left. apply nd2. lia.
  - pose proof (lo (-99) ltac:(lia) X). destruct (Z.eq_dec e (-99)) as [->|].
    + right; left. rewrite nd2 by lia. repeat split; auto.
    + left. apply nd3. lia.
  - pose proof (above_L10 e 100 v M4 X B). left. apply nd3. lia.
Qed.

(** ** Powers of ten *)

Lemma pow10_double_neg neg k : Z.abs (sf_num (pow10_double neg k)) = Z.abs (sf_num (pow10_double false k)) /\
  sf_den (pow10_double neg k) = sf_den (pow10_double false k).
Proof.
  destruct neg; [|auto]. Transparent pow10_double. unfold pow10_double. rewrite round64_neg.
  destruct (round64 false (dec_num 1 k) (dec_den k)) as [s|s| |s m e]; cbn; auto.
  split; [|reflexivity]. destruct s; cbn [negb]; lia.
Qed.
Lemma pow10_double_sign neg k : -307 <= k <= 308 -> is_pos (NFlt (pow10_double neg k)) = negb neg.
Proof.
  intros H. pose proof (pow10_double_pos k H) as P. unfold is_pos. cbn [num_num]. destruct neg; cbn [negb].
  - unfold pow10_double in *. rewrite round64_neg. destruct (round64 false (dec_num 1 k) (dec_den k)) as [s|s| |s m e]; cbn in *; try lia.
    apply Z.leb_gt. destruct s; cbn [negb] in *; nia.
  - apply Z.leb_le. lia.
Qed.
Opaque pow10_double.

Lemma in_range_p10 k : -307 <= k <= 308 -> in_range (L10 k).
Proof.
  intros H. destruct (L10_bounds k H) as [A B]. pose proof (p10_pos k). pose proof p2m53. pose proof (p2_pos (-53)).
  split.
  - assert (2 * p2 (-1022) <= p10 k)%Q; [|nra].
    apply Qle_trans with (p10 (-307)); [|apply p10_le; lia]. vm_compute. discriminate.
  - assert (p10 k <= p10 308)%Q by (apply p10_le; lia). nra.
Qed.

Lemma absv_pow10 neg k : -307 <= k <= 308 -> absv (NFlt (pow10_double neg k)) = L10 k.
Proof.
  intros H. unfold absv. cbn [num_num num_den]. destruct (pow10_double_neg neg k) as [-> ->].
  pose proof (pow10_double_pos k H). rewrite Z.abs_eq by lia. reflexivity.
Qed.

Lemma pow10_double_finite neg k : -307 <= k <= 308 -> is_finite (pow10_double neg k) = true.
Proof.
  intros H. Transparent pow10_double. unfold pow10_double. destruct (p10_range k H) as [_ B].
  pose proof (round64_spec neg (dec_num 1 k) (dec_den k)) as X. rewrite pow10_frac in X.
  pose proof (dec_num_pos k). apply X; auto; [lia|apply dec_den_pos].
Qed.
Opaque pow10_double.

Lemma exp_string_pos wo v v' p N e nexp : is_pos v = is_pos v' -> exp_string wo v p N e nexp = exp_string wo v' p N e nexp.
Proof. intros H. unfold exp_string, sign_text. now rewrite H. Qed.
Lemma places_pos wo v v' nexp : is_pos v = is_pos v' -> places wo v nexp = places wo v' nexp.
Proof. intros H. unfold places, sign_cols. now rewrite H. Qed.

Lemma exp_digits_range n d : 0 < n -> 0 < d -> (1 <= exp_digits n d <= 3)%nat.
Proof. intros. destruct (exp_digits_cases n d) as [(-> & _)|[(-> & _)|[(-> & _)|[(-> & _)|(-> & _)]]]]; auto; lia. Qed.

(** value of the digits near a power of ten *)
Lemma digits_at_one P N a : 0 < P <= 10 ^ 12 -> P <= N -> (a <= 1 + p2 (-52))%Q -> (0 < a)%Q ->
  (Qabs (inject_Z N - a * inject_Z P) <= (1 # 2) + p2 (-48) * (a * inject_Z P))%Q -> N = P.
Proof.
  intros [Hp Hu] HN A A0 R. apply Qabs_Qle_condition in R as [_ R].
  assert (QU : (inject_Z P <= 1000000000000)%Q) by (change 1000000000000%Q with (inject_Z (10 ^ 12)); now apply iz_le).
  pose proof (iz_pos P Hp) as QP.
  assert (C48 : (p2 (-48) == 1 # 281474976710656)%Q) by reflexivity.
  assert (C52 : (p2 (-52) == 1 # 4503599627370496)%Q) by reflexivity. rewrite C48 in R. rewrite C52 in A.
  set (x := inject_Z P) in *.
  assert (AX : (a * x <= (1 + (1 # 4503599627370496)) * x)%Q) by nra.
  assert (inject_Z N < inject_Z (P + 1))%Q as X; [|apply (proj1 (iz_lt _ _)) in X; lia].
  rewrite inject_Z_plus. fold x. change (inject_Z 1) with 1%Q. lra.
Qed.

Lemma pow10_form fuel wo neg k : libm_ok (w_libm wo) -> wide_ok wo -> -307 <= k <= 308 ->
  let v := NFlt (pow10_double neg k) in let nexp := ndigits (Z.abs k) in let p := places wo v nexp in
  float2expformstr_fuel (S fuel) wo v = Ok (exp_string wo v p (10 ^ Z.of_nat p) k nexp).
Proof.
  intros LM W Hk v nexp p.
  assert (Nz : num_num v <> 0).
  { cbn. destruct (pow10_double_neg neg k) as [E _]. pose proof (pow10_double_pos k Hk). lia. }
  assert (Ev : l_elog (w_libm wo) (Z.abs (num_num v)) (num_den v) = k).
  { cbn [num_num num_den v]. destruct (pow10_double_neg neg k) as [-> ->].
    pose proof (pow10_double_pos k Hk). rewrite Z.abs_eq by lia. now apply elog_pow10. }
  assert (Av : absv v = L10 k) by now apply absv_pow10.
  destruct (mantissa_spec (w_libm wo) v LM) as (Er & A1 & A2 & mu & SM & Mn & MR); auto.
  { cbn. now apply pow10_double_finite. }
  { rewrite Av. now apply in_range_p10. }
  rewrite Ev in *. rewrite Av in *.
  pose proof (num_den_pos v) as Dp.
  assert (Nexp : exp_digits (Z.abs (num_num v)) (num_den v) = nexp).
  { change (frac (Z.abs (num_num v)) (num_den v)) with (absv v) in *.
    destruct (exp_digits_cases (Z.abs (num_num v)) (num_den v) ltac:(lia) Dp) as [(-> & X & Y)|[(-> & X & Y)|[(-> & X & Y)|[(-> & X)|(-> & X)]]]];
      change (frac (Z.abs (num_num v)) (num_den v)) with (absv v) in *; rewrite Av in *; unfold nexp; symmetry;
      assert (LT : forall i j, -307 <= i <= 308 -> -307 <= j <= 308 -> (L10 i < L10 j)%Q -> i < j)
        by (intros i j Hi Hj Q; destruct (Z.lt_trichotomy i j) as [|[->|G]]; [auto|lra|
            pose proof (L10_lt j i ltac:(lia) G ltac:(lia)); lra]);
      assert (LE : forall i j, -307 <= i <= 308 -> -307 <= j <= 308 -> (L10 i <= L10 j)%Q -> i <= j)
        by (intros i j Hi Hj Q; destruct (Z.le_gt_cases i j) as [|G]; [auto|
            pose proof (L10_lt j i ltac:(lia) G ltac:(lia)); lra]).
    - apply LE in X; try lia. apply LT in Y; try lia. apply nd1. lia.
    - apply LE in X; try lia. apply LT in Y; try lia. apply nd2. lia.
    - apply LE in X; try lia. apply LT in Y; try lia. apply nd2. lia.
    - apply LT in X; try lia. apply nd3. lia.
    - apply LE in X; try lia. apply nd3. lia. }
  assert (Ne : (1 <= nexp <= 3)%nat) by (rewrite <- Nexp; apply exp_digits_range; lia).
  destruct (places_bounds wo v nexp W Ne) as [Pb Pe]. fold p in Pb, Pe.
  rewrite (expform_unfold fuel wo v mu W).
  2:{ rewrite Nexp. exact Ne. }
  2:{ destruct (Z.eqb_spec (Z.abs (num_num v)) 0); [lia|]. rewrite Ev. exact SM. }
  destruct (Z.eqb_spec (Z.abs (num_num v)) 0); [lia|]. rewrite Ev, Nexp. unfold expform_body. fold p.
  destruct (printed_digits mu (L10 k * p10 (- k)) p A1 A2 Mn MR ltac:(lia)) as [Nb NR].
  set (P := 10 ^ Z.of_nat p) in *. set (N := rhe (sf_num mu * P) (sf_den mu)) in *.
  assert (Pp : 0 < P) by (apply Z.pow_pos_nonneg; lia).
  assert (Pu : P <= 10 ^ 12) by (apply Z.pow_le_mono_r; lia).
  assert (NP : N = P).
  { apply (digits_at_one P N (L10 k * p10 (- k))); auto; try lia.
    - destruct (L10_bounds k Hk) as [_ U]. pose proof (p10_opp k) as O. pose proof (p10_pos (- k)) as P'.
      apply Qle_trans with ((1 + p2 (-53)) * p10 k * p10 (- k))%Q; [apply Qmult_le_compat_r; [exact U|lra]|].
      setoid_replace ((1 + p2 (-53)) * p10 k * p10 (- k))%Q with ((1 + p2 (-53)) * (p10 (- k) * p10 k))%Q by ring.
      rewrite O. assert (p2 (-53) <= p2 (-52))%Q by (apply p2_le; lia). lra.
    - assert (p2 (-42) <= 1 # 100)%Q by (vm_compute; discriminate). lra. }
  rewrite NP. rewrite exp_string_length by lia. fold P. rewrite Z.div_same by lia.
  rewrite (ndigits_small 1) by lia. fold nexp. rewrite Nat.max_id.
  destruct (Nat.ltb_spec (w_width wo) (sign_cols wo v + (1 + 1 + p) + b2n (w_keepE wo) + 1 + nexp)); [lia|reflexivity].
Qed.

(** doubles just below 1e-9 and 1e-99 that are printed with a spare exponent column *)
Definition near_limit (x : Q) (e : Z) : Prop :=
  (e = -9 \/ e = -99) /\ (p10 e * (1 - p2 (-42)) <= x)%Q /\ (x < L10 e)%Q.

Definition good_form (wo : wopts) (v : num) (N e : Z) (nexp : nat) : Prop :=
  let p := places wo v nexp in
  (1 <= nexp <= 3)%nat /\ -308 <= e <= 308 /\ 10 ^ Z.of_nat p <= N < 10 * 10 ^ Z.of_nat p /\
  (Qabs (absv v - inject_Z N * p10 (e - Z.of_nat p)) <= (1 # 2) * p10 (e - Z.of_nat p) + p2 (-48) * absv v)%Q /\
  (ndigits (Z.abs e) = nexp \/
   ((ndigits (Z.abs e) < nexp)%nat /\ N = 10 ^ Z.of_nat p /\ near_limit (absv v) e)).

Lemma digits_error v P (p : nat) N e : P = 10 ^ Z.of_nat p ->
  (Qabs (inject_Z N - (v * p10 (- e)) * inject_Z P) <= (1 # 2) + p2 (-48) * ((v * p10 (- e)) * inject_Z P))%Q ->
  (Qabs (v - inject_Z N * p10 (e - Z.of_nat p)) <= (1 # 2) * p10 (e - Z.of_nat p) + p2 (-48) * v)%Q.
Proof.
  intros -> H. pose proof (p10_pos (e - Z.of_nat p)) as T.
  assert (E1 : (p10 (- e) * inject_Z (10 ^ Z.of_nat p) * p10 (e - Z.of_nat p) == 1)%Q).
  { rewrite <- p10_Z by lia. rewrite <- !p10_plus. replace (- e + Z.of_nat p + (e - Z.of_nat p)) with 0 by lia. reflexivity. }
  set (t := p10 (e - Z.of_nat p)) in *. set (x := p10 (- e)) in *. set (q := inject_Z (10 ^ Z.of_nat p)) in *.
  set (n := inject_Z N) in *.
  assert (E2 : (v * x * q * t == v)%Q) by (setoid_replace (v * x * q * t)%Q with (v * (x * q * t))%Q by ring; rewrite E1; ring).
  apply Qabs_Qle_condition in H as [A B]. set (y := (v * x * q)%Q) in *.
  assert (E3 : (p2 (-48) * y * t == p2 (-48) * v)%Q) by (rewrite <- E2 at 1; ring).
  apply Qabs_le.
  - assert ((n - y) * t <= ((1 # 2) + p2 (-48) * y) * t)%Q by (apply Qmult_le_compat_r; [exact B|lra]).
    lra.
  - assert (- ((1 # 2) + p2 (-48) * y) * t <= (n - y) * t)%Q by (apply Qmult_le_compat_r; [exact A|lra]).
    lra.
Qed.

Lemma ndigits_abs_le e : -308 <= e <= 308 -> (1 <= ndigits (Z.abs e) <= 3)%nat.
Proof.
  intros H. destruct (Z.lt_ge_cases (Z.abs e) 10); [rewrite nd1; lia|].
  destruct (Z.lt_ge_cases (Z.abs e) 100); [rewrite nd2; lia|]. rewrite nd3; lia.
Qed.
Lemma ndigits_step e : -308 <= e <= 307 -> (ndigits (Z.abs e) <= ndigits (Z.abs (e + 1)) + 1)%nat.
Proof.
  intros H. destruct (Z.lt_ge_cases (Z.abs e) 10); [rewrite nd1 by lia; lia|].
  pose proof (ndigits_abs_le (e + 1) ltac:(lia)).
  destruct (Z.lt_ge_cases (Z.abs e) 100); [rewrite nd2 by lia; lia|]. rewrite (nd3 e) by lia.
  enough (2 <= ndigits (Z.abs (e + 1)))%nat by lia.
  destruct (Z.lt_ge_cases (Z.abs (e + 1)) 100); [rewrite nd2 by lia; lia|rewrite nd3; lia].
Qed.

Lemma below_one_digits v e : -307 <= e <= 308 -> (v < L10 e)%Q -> (v * p10 (- e) <= 1 + p2 (-52))%Q.
Proof.
  intros He H. destruct (L10_bounds e He) as [_ U]. pose proof (p10_opp e) as O. pose proof (p10_pos (- e)) as P'.
  apply Qle_trans with ((1 + p2 (-53)) * p10 e * p10 (- e))%Q; [apply Qmult_le_compat_r; lra|].
  setoid_replace ((1 + p2 (-53)) * p10 e * p10 (- e))%Q with ((1 + p2 (-53)) * (p10 (- e) * p10 e))%Q by ring.
  rewrite O. assert (p2 (-53) <= p2 (-52))%Q by (apply p2_le; lia). lra.
Qed.

Lemma pow10_retry v p N e k : 0 < N -> (inject_Z N * p10 (e - Z.of_nat p) == p10 k)%Q ->
  round64 (sgn_of v) (dec_num N (e - Z.of_nat p)) (dec_den (e - Z.of_nat p)) = pow10_double (sgn_of v) k.
Proof.
  intros HN E. Transparent pow10_double. unfold pow10_double. Opaque pow10_double.
  assert (D1 : 0 < dec_num N (e - Z.of_nat p)).
  { unfold dec_num. assert (0 < 10 ^ Z.max 0 (e - Z.of_nat p)) by (apply Z.pow_pos_nonneg; lia). nia. }
  pose proof (dec_den_pos (e - Z.of_nat p)) as D2. pose proof (dec_num_pos k) as D3. pose proof (dec_den_pos k) as D4.
  apply round64_same; try lia.
  assert (F : (frac (dec_num N (e - Z.of_nat p)) (dec_den (e - Z.of_nat p)) == frac (dec_num 1 k) (dec_den k))%Q).
  { rewrite !dec_frac. unfold decimalQ. fold (p10 (e - Z.of_nat p)). fold (p10 k). rewrite E. change (inject_Z 1) with 1%Q. ring. }
  assert (X : (inject_Z (dec_num N (e - Z.of_nat p)) * inject_Z (dec_den k) == inject_Z (dec_num 1 k) * inject_Z (dec_den (e - Z.of_nat p)))%Q).
  { pose proof (iz_pos _ D2). pose proof (iz_pos _ D4). unfold frac in F.
    apply (Qmult_inj_r _ _ (/ (inject_Z (dec_den k) * inject_Z (dec_den (e - Z.of_nat p))))).
    - intros C. assert (inject_Z (dec_den k) * inject_Z (dec_den (e - Z.of_nat p)) * / (inject_Z (dec_den k) * inject_Z (dec_den (e - Z.of_nat p))) == 1)%Q as Y by (apply Qmult_inv_r; nra).
      rewrite C in Y. lra.
    - transitivity (inject_Z (dec_num N (e - Z.of_nat p)) / inject_Z (dec_den (e - Z.of_nat p)))%Q; [field; lra|].
      rewrite F. field. lra. }
  rewrite <- !inject_Z_mult in X. apply (proj1 (inject_Z_injective _ _)). exact X.
Qed.

Lemma exp_form fuel wo v : libm_ok (w_libm wo) -> wide_ok wo -> plain v -> num_num v <> 0 -> in_range (absv v) ->
  exists N e nexp, good_form wo v N e nexp /\
    float2expformstr_fuel (S (S fuel)) wo v = Ok (exp_string wo v (places wo v nexp) N e nexp).
Proof.
  intros LM W Pl Nz R.
  destruct (mantissa_spec (w_libm wo) v LM Pl Nz R) as (Er & A1 & A2 & mu & SM & Mn & MR).
  set (e := l_elog (w_libm wo) (Z.abs (num_num v)) (num_den v)) in *.
  set (nexp := exp_digits (Z.abs (num_num v)) (num_den v)).
  pose proof (num_den_pos v) as Dp.
  assert (Ne : (1 <= nexp <= 3)%nat) by (apply exp_digits_range; lia).
  destruct (places_bounds wo v nexp W Ne) as [Pb Pe]. set (p := places wo v nexp) in *.
  destruct (printed_digits mu (absv v * p10 (- e)) p A1 A2 Mn MR ltac:(lia)) as [Nb NR].
  set (P := 10 ^ Z.of_nat p) in *. set (N := rhe (sf_num mu * P) (sf_den mu)) in *.
  assert (Pp : 0 < P) by (apply Z.pow_pos_nonneg; lia).
  assert (Pu : P <= 10 ^ 12) by (apply Z.pow_le_mono_r; lia).
  assert (C42 : (p2 (-42) <= 1 # 100)%Q) by (vm_compute; discriminate).
  assert (Apos : (0 < absv v * p10 (- e))%Q) by lra.
  pose proof (p10_opp e) as PO. pose proof (p10_pos e) as PP. pose proof (p10_pos (- e)) as PM.
  assert (Lo : (p10 e * (1 - p2 (-42)) <= absv v)%Q).
  { assert ((1 - p2 (-42)) * p10 e <= absv v * p10 (- e) * p10 e)%Q by (apply Qmult_le_compat_r; lra).
    setoid_replace (absv v * p10 (- e) * p10 e)%Q with (absv v * (p10 (- e) * p10 e))%Q in H by ring. rewrite PO in H. lra. }
  assert (Hi : (absv v < p10 (e + 1))%Q).
  { rewrite p10_succ. assert (absv v * p10 (- e) * p10 e < 10 * p10 e)%Q by (apply Qmult_lt_compat_r; lra).
    setoid_replace (absv v * p10 (- e) * p10 e)%Q with (absv v * (p10 (- e) * p10 e))%Q in H by ring. rewrite PO in H. lra. }
  pose proof (digits_error (absv v) P p N e eq_refl NR) as DE.
  assert (Unf : float2expformstr_fuel (S (S fuel)) wo v = expform_body wo v mu e nexp (fun f => float2expformstr_fuel (S fuel) wo (NFlt f))).
  { rewrite (expform_unfold (S fuel) wo v mu W).
    - destruct (Z.eqb_spec (Z.abs (num_num v)) 0); [lia|]. reflexivity.
    - exact Ne.
    - destruct (Z.eqb_spec (Z.abs (num_num v)) 0); [lia|]. exact SM. }
  assert (AtOne : (absv v < L10 e)%Q -> -307 <= e -> N = P).
  { intros H He. apply (digits_at_one P N (absv v * p10 (- e))); auto; try lia. apply below_one_digits; auto. lia. }
  assert (Lim : ndigits (Z.abs e) = nexp \/
    ((e = -9 \/ e = -99) /\ (ndigits (Z.abs e) < nexp)%nat /\ (absv v < L10 e)%Q) \/
    ((e = 10 \/ e = 100) /\ (nexp < ndigits (Z.abs e))%nat /\ (absv v < L10 e)%Q))
    by (apply classify; auto; lia).
  assert (ND : N < 10 * P -> ndigits (N / P) = 1%nat).
  { intros H. apply ndigits_small. split; [apply Z.div_pos; lia|]. apply Z.div_lt_upper_bound; lia. }
  assert (Again : forall k, -307 <= k <= 308 -> (inject_Z N * p10 (e - Z.of_nat p) == p10 k)%Q ->
     (nexp <= ndigits (Z.abs e))%nat -> (w_width wo < length (exp_string wo v p N e nexp))%nat ->
     e - Z.of_nat p <= k - Z.of_nat (places wo v (ndigits (Z.abs k))) ->
     exists N e nexp, good_form wo v N e nexp /\
       float2expformstr_fuel (S (S fuel)) wo v = Ok (exp_string wo v (places wo v nexp) N e nexp)).
  { intros k Hk EQ C Len PL. exists (10 ^ Z.of_nat (places wo v (ndigits (Z.abs k)))), k, (ndigits (Z.abs k)).
    pose proof (ndigits_abs_le k ltac:(lia)) as Nk. destruct (places_bounds wo v _ W Nk) as [Qb Qe].
    assert (Qp : 0 < 10 ^ Z.of_nat (places wo v (ndigits (Z.abs k)))) by (apply Z.pow_pos_nonneg; lia).
    split.
    - split; [exact Nk|]. split; [lia|]. split; [lia|]. split; [|now left].
      set (q := places wo v (ndigits (Z.abs k))) in *.
      assert (EK : (inject_Z (10 ^ Z.of_nat q) * p10 (k - Z.of_nat q) == p10 k)%Q).
      { rewrite <- p10_Z by lia. rewrite <- p10_plus. now replace (Z.of_nat q + (k - Z.of_nat q)) with k by lia. }
      rewrite EK. rewrite EQ in DE. eapply Qle_trans; [exact DE|].
      pose proof (p10_le _ _ PL). lra.
    - rewrite Unf. unfold expform_body. fold p. fold P. fold N.
      destruct (Nat.ltb_spec (w_width wo) (length (exp_string wo v p N e nexp))); [|lia].
      rewrite retry_value by lia. rewrite (pow10_retry v p N e k) by (auto; lia).
      pose proof (pow10_double_sign (sgn_of v) k Hk) as SG. unfold sgn_of in SG at 2. rewrite negb_involutive in SG.
      rewrite (pow10_form fuel wo (sgn_of v) k LM W Hk).
      rewrite (places_pos wo _ v _ SG). now rewrite (exp_string_pos wo _ v _ _ _ _ SG). }
  destruct (Z.eq_dec N (10 * P)) as [E10|N10].
  - (* carry *)
    assert (Same : ndigits (Z.abs e) = nexp).
    { destruct Lim as [|[([-> | ->] & _ & H)|([-> | ->] & _ & H)]]; auto; apply AtOne in H; lia. }
    assert (e <= 307).
    { destruct (Z.le_gt_cases e 307); auto. assert (e = 308) by lia. exfalso.
      destruct R as [_ R2]. assert (Q2 : (absv v * p10 (- e) < 2)%Q).
      { apply Qlt_le_trans with (2 * p10 e * p10 (- e))%Q; [apply Qmult_lt_compat_r; auto; congruence|].
        setoid_replace (2 * p10 e * p10 (- e))%Q with (2 * (p10 (- e) * p10 e))%Q by ring. rewrite PO. lra. }
      apply Qabs_Qle_condition in NR as [_ NR]. rewrite E10 in NR. rewrite inject_Z_mult in NR.
      change (inject_Z 10) with 10%Q in NR. pose proof (iz_le 1 P) as [_ QP]. specialize (QP ltac:(lia)).
      change (inject_Z 1) with 1%Q in QP. assert (p2 (-48) <= 1 # 100)%Q by (vm_compute; discriminate).
      pose proof (p2_pos (-48)).
      set (a := (absv v * p10 (- e))%Q) in *. set (x := inject_Z P) in *.
      assert (a * x <= 2 * x)%Q by (apply Qmult_le_compat_r; lra).
      assert (p2 (-48) * (a * x) <= (1 # 100) * (a * x))%Q by (apply Qmult_le_compat_r; [lra|nra]). lra. }
    apply (Again (e + 1)); try lia.
    + rewrite E10. unfold P. replace (10 * 10 ^ Z.of_nat p) with (10 ^ (Z.of_nat p + 1)) by (rewrite Z.pow_add_r by lia; lia).
      rewrite <- p10_Z by lia. rewrite <- p10_plus. now replace (Z.of_nat p + 1 + (e - Z.of_nat p)) with (e + 1) by lia.
    + rewrite exp_string_length by lia. fold P. rewrite E10, Z.div_mul by lia. rewrite Same, Nat.max_id.
      change (ndigits 10) with 2%nat. lia.
    + pose proof (ndigits_step e ltac:(lia)). pose proof (ndigits_abs_le (e + 1) ltac:(lia)) as Nk.
      destruct (places_bounds wo v _ W Nk) as [_ Qe]. lia.
  - assert (N < 10 * P) as NLt by lia. specialize (ND NLt).
    assert (Direct : (ndigits (Z.abs e) <= nexp)%nat ->
       float2expformstr_fuel (S (S fuel)) wo v = Ok (exp_string wo v p N e nexp)).
    { intros H. rewrite Unf. unfold expform_body. fold p. fold P. fold N.
      rewrite exp_string_length by lia. fold P. rewrite ND, Nat.max_l by lia.
      destruct (Nat.ltb_spec (w_width wo) (sign_cols wo v + (1 + 1 + p) + b2n (w_keepE wo) + 1 + nexp)); [lia|reflexivity]. }
    destruct Lim as [Same|[(Ee & Lt & Bl)|(Ee & Lt & Bl)]].
    + exists N, e, nexp. split; [|apply Direct; lia]. unfold good_form. fold p P. repeat (split; [lia || exact DE|]). now left.
    + assert (NP : N = P) by (apply AtOne; [auto|lia]).
      exists N, e, nexp. split; [|apply Direct; lia]. unfold good_form. fold p P. repeat (split; [lia || exact DE|]).
      right. split; [exact Lt|]. split; [exact NP|]. repeat split; auto.
    + assert (NP : N = P) by (apply AtOne; [auto|lia]).
      apply (Again e); try lia.
      * rewrite NP. unfold P. rewrite <- p10_Z by lia. rewrite <- p10_plus.
        now replace (Z.of_nat p + (e - Z.of_nat p)) with e by lia.
      * rewrite exp_string_length by lia. fold P. rewrite ND, Nat.max_r by lia. lia.
      * pose proof (ndigits_abs_le e ltac:(lia)) as Nk. destruct (places_bounds wo v _ W Nk) as [_ Qe]. lia.
Qed.
