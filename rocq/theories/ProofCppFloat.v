(** Real numbers written by the C++ templates (C50). *)
From Coq Require Import Ascii String ZArith QArith Qabs Lqa Bool Lia List.
From Coq Require Import Floats.SpecFloat.
From Verif Require Import PyBase ProofPyBase PyFloat ProofFloat ModelFortran ModelRecords ModelTape
  SpecFields ProofFields SpecFloat ProofFloatText ProofAccept SpecLibm ProofLibm ProofFloatWrite ProofRecords ModelCpp SpecCpp ProofCpp.
Import ListNotations.
Open Scope Z_scope.

(** ** Scientific notation *)

Lemma sci_exponent_log n d : sci_exponent n d = floor_log10 n d.
Proof. unfold sci_exponent, floor_log10, dec_num, dec_den. now rewrite Z.mul_1_l. Qed.

Lemma sci_digits_spec p n d : 0 < n -> 0 < d ->
  let '(m, e) := sci_digits p n d in
  10 ^ Z.of_nat p <= m < 10 ^ (Z.of_nat p + 1) /\ (e = sci_exponent n d \/ e = sci_exponent n d + 1) /\
  (Qabs (frac n d - inject_Z m * p10 (e - Z.of_nat p)) <= (1 # 2) * p10 (e - Z.of_nat p))%Q.
Proof.
  intros Hn Hd. unfold sci_digits. replace (n =? 0) with false by (symmetry; apply Z.eqb_neq; lia).
  destruct (floor_log10_spec n d Hn Hd) as [A B]. rewrite <- sci_exponent_log in A, B.
  set (e := sci_exponent n d) in *. cbv zeta. set (k := Z.of_nat p - e).
  set (N := n * 10 ^ Z.max 0 k). set (D := d * 10 ^ Z.max 0 (- k)).
  assert (P1 : 0 < 10 ^ Z.max 0 k) by (apply Z.pow_pos_nonneg; lia).
  assert (P2 : 0 < 10 ^ Z.max 0 (- k)) by (apply Z.pow_pos_nonneg; lia).
  assert (HD : 0 < D) by (unfold D; nia).
  assert (F : (frac N D == frac n d * p10 k)%Q).
  { unfold N, D, frac. rewrite !inject_Z_mult. rewrite <- !p10_Z by lia.
    replace (Z.max 0 k) with (k + Z.max 0 (- k)) at 1 by lia. rewrite p10_plus. pose proof (p10_pos (Z.max 0 (- k))).
    pose proof (iz_pos _ Hd). field. split; lra. }
  pose proof (rhe_frac N D HD) as R. set (m := rhe N D) in *.
  assert (K : (p10 k * p10 (- k) == 1)%Q) by (rewrite Qmult_comm; apply p10_opp).
  pose proof (p10_pos k) as Pk. pose proof (p10_pos (- k)) as Pk'.
  assert (Lo : 10 ^ Z.of_nat p <= m).
  { pose proof (rhe_mono (D * 10 ^ Z.of_nat p) N D HD) as Mo. rewrite rhe_exact in Mo by auto. apply Mo.
    assert (L : (p10 (Z.of_nat p) <= frac N D)%Q).
    { rewrite F. replace (Z.of_nat p) with (e + k) by (unfold k; lia). rewrite p10_plus. apply Qmult_le_r; auto. }
    apply le_frac in L; auto. rewrite p10_Z, <- inject_Z_mult in L by lia. apply (proj1 (iz_le _ _)) in L. lia. }
  assert (Hi : m <= 10 ^ (Z.of_nat p + 1)).
  { pose proof (rhe_mono N (D * 10 ^ (Z.of_nat p + 1)) D HD) as Mo. rewrite rhe_exact in Mo by auto. apply Mo.
    assert (L : (frac N D < p10 (Z.of_nat p + 1))%Q).
    { rewrite F. replace (Z.of_nat p + 1) with (e + 1 + k) by (unfold k; lia). rewrite p10_plus. apply Qmult_lt_r; auto. }
    apply frac_lt in L; auto. rewrite p10_Z, <- inject_Z_mult in L by lia. apply (proj1 (iz_lt _ _)) in L. lia. }
  assert (ER : (Qabs (frac n d - inject_Z m * p10 (e - Z.of_nat p)) <= (1 # 2) * p10 (e - Z.of_nat p))%Q).
  { replace (e - Z.of_nat p) with (- k) by (unfold k; lia). rewrite F in R.
    setoid_replace (frac n d - inject_Z m * p10 (- k))%Q with ((frac n d * p10 k - inject_Z m) * p10 (- k))%Q.
    - rewrite Qabs_Qmult, (Qabs_pos (p10 (- k))) by lra. apply Qmult_le_r; auto.
    - setoid_replace ((frac n d * p10 k - inject_Z m) * p10 (- k))%Q with (frac n d * (p10 k * p10 (- k)) - inject_Z m * p10 (- k))%Q by ring.
      rewrite K. ring. }
  destruct (Z.ltb_spec m (10 ^ (Z.of_nat p + 1))) as [L|L].
  - repeat split; auto.
  - assert (m = 10 ^ (Z.of_nat p + 1)) as Em by lia.
    assert (P10 : 10 ^ (Z.of_nat p + 1) = 10 * 10 ^ Z.of_nat p) by (rewrite Z.pow_add_r by lia; lia).
    assert (0 < 10 ^ Z.of_nat p) by (apply Z.pow_pos_nonneg; lia).
    assert (m / 10 = 10 ^ Z.of_nat p) as Ed by (rewrite Em, P10, Z.mul_comm; apply Z.div_mul; lia).
    rewrite Ed. split; [lia|]. split; [now right|].
    replace (e + 1 - Z.of_nat p) with (e - Z.of_nat p + 1) by lia. rewrite p10_succ.
    assert (inject_Z m == 10 * inject_Z (10 ^ Z.of_nat p))%Q as Eq by (rewrite Em, P10, inject_Z_mult; reflexivity).
    rewrite Eq in ER. pose proof (p10_pos (e - Z.of_nat p)).
    setoid_replace (inject_Z (10 ^ Z.of_nat p) * (10 * p10 (e - Z.of_nat p)))%Q
      with (10 * inject_Z (10 ^ Z.of_nat p) * p10 (e - Z.of_nat p))%Q by ring.
    eapply Qle_trans; [exact ER|]. nra.
Qed.

(** the exponent without zeros at the start, up to two digits *)
Definition two_digits : list Z := map (fun i => Z.of_nat i - 99) (seq 0 199).
Lemma strip_exponent_two e : -99 <= e <= 99 ->
  strip_exponent (ModelCpp.exp_text e) [] [] = exp_sign e ++ str_of_nonneg (Z.abs e).
Proof.
  intros H. assert (In e two_digits) as J.
  { apply in_map_iff. exists (Z.to_nat (e + 99)). split; [lia|]. apply in_seq. lia. }
  assert (A : forallb (fun e => str_eqb (strip_exponent (ModelCpp.exp_text e) [] []) (exp_sign e ++ str_of_nonneg (Z.abs e))) two_digits = true)
    by (vm_compute; reflexivity).
  rewrite forallb_forall in A. apply A in J. now apply str_eqb_eq in J.
Qed.

Lemma index_chr_app c a b : ~ In c a -> index_chr c (a ++ c :: b) = length a.
Proof.
  induction a as [|x a IH]; intros H; cbn [app index_chr length].
  - now rewrite (proj2 (chr_eqb_eq c c) eq_refl).
  - destruct (chr_eqb x c) eqn:E; [apply chr_eqb_eq in E; exfalso; apply H; now left|].
    f_equal. apply IH. intros J. apply H. now right.
Qed.

Definition sgn_text (f : spec_float) : str := if sf_sign f then $"-" else [].
Definition fabs (f : spec_float) : Z := Z.abs (sf_num f).

Lemma no_e f p m : (1 <= p)%nat -> 0 <= m -> ~ In "e"%char (sgn_text f ++ fixed_digits p m).
Proof.
  intros Hp Hm J. destruct (fixed_digits_parts p m Hp Hm) as (ip & fp & E & Di & Df & _).
  rewrite E in J. unfold all_digits in *. rewrite Forall_forall in Di, Df.
  rewrite !in_app_iff in J. destruct J as [J|[J|[J|J]]].
  - unfold sgn_text in J. destruct (sf_sign f); cbn in J; [destruct J as [J|[]]; discriminate|destruct J].
  - apply Di in J. discriminate.
  - cbn in J. destruct J as [J|[]]. discriminate.
  - apply Df in J. discriminate.
Qed.

Lemma helper_text p f m e : (1 <= p)%nat -> 0 <= m -> -99 <= e <= 99 -> sci_digits p (fabs f) (sf_den f) = (m, e) ->
  let pre := sgn_text f ++ fixed_digits p m in
  float2endfstr_helper p f = (pre ++ $"e" ++ exp_sign e ++ str_of_nonneg (Z.abs e), length pre).
Proof.
  intros Hp Hm He S pre. unfold float2endfstr_helper, format_sci. fold (fabs f). rewrite S.
  fold (sgn_text f). rewrite (app_assoc (sgn_text f)). fold pre.
  rewrite index_chr_app by now apply no_e. f_equal.
  assert (E1 : firstn (Datatypes.S (length pre)) (pre ++ "e"%char :: ModelCpp.exp_text e) = pre ++ $"e").
  { replace (Datatypes.S (length pre)) with (length pre + 1)%nat by lia. rewrite firstn_app_2. reflexivity. }
  assert (E2 : skipn (Datatypes.S (length pre)) (pre ++ "e"%char :: ModelCpp.exp_text e) = ModelCpp.exp_text e).
  { rewrite skipn_app, skipn_all2 by lia. replace (Datatypes.S (length pre) - length pre)%nat with 1%nat by lia. reflexivity. }
  rewrite E1, E2, strip_exponent_two by auto. now rewrite <- app_assoc.
Qed.
Lemma erase_at a c b : erase (a ++ c :: b) (length a) = a ++ b.
Proof.
  unfold erase. rewrite firstn_app, firstn_all, Nat.sub_diag. cbn [firstn]. rewrite app_nil_r.
  rewrite skipn_app, skipn_all2 by lia. replace (S (length a) - length a)%nat with 1%nat by lia. reflexivity.
Qed.

(** ** Numbers between 1e-99 and 1e99 *)

Lemma sfQ_abs f : (Qabs (sfQ f) == frac (fabs f) (sf_den f))%Q.
Proof.
  rewrite sfQ_val. unfold val, frac, fabs. pose proof (sf_den_pos f) as P. apply iz_pos in P.
  unfold Qdiv. rewrite Qabs_Qmult, (Qabs_pos (/ _)) by (apply Qlt_le_weak, Qinv_lt_0_compat; auto).
  apply Qmult_comp; [|reflexivity]. unfold Qabs, inject_Z. reflexivity.
Qed.
Lemma sfQ_zero f : (sfQ f == 0)%Q <-> sf_num f = 0.
Proof.
  rewrite sfQ_val. unfold val. pose proof (sf_den_pos f) as P. split.
  - intros H. assert (E : (frac (sf_num f) (sf_den f) == frac 0 1)%Q) by (rewrite H; reflexivity).
    apply (proj1 (frac_eq_cross _ _ _ _ P Z.lt_0_1)) in E. lia.
  - intros ->. unfold frac. change (inject_Z 0) with 0%Q. unfold Qdiv. ring.
Qed.

Definition two_digit_exponent (f : spec_float) : Prop :=
  (sfQ f == 0)%Q \/ (p10 (-99) <= Qabs (sfQ f) /\ Qabs (sfQ f) < p10 99)%Q.

Lemma digits_of p f : (1 <= p)%nat -> two_digit_exponent f ->
  exists m e, sci_digits p (fabs f) (sf_den f) = (m, e) /\ 0 <= m < 10 ^ (Z.of_nat p + 1) /\ -99 <= e <= 99 /\
   (sf_num f <> 0 -> 10 ^ Z.of_nat p <= m) /\
   (Qabs (Qabs (sfQ f) - inject_Z m * p10 (e - Z.of_nat p)) <= (1 # 2) * p10 (e - Z.of_nat p))%Q /\
   (sf_num f = 0 -> e = 0) /\
   (sf_num f <> 0 -> e = sci_exponent (fabs f) (sf_den f) \/ e = sci_exponent (fabs f) (sf_den f) + 1).
Proof.
  intros Hp H. pose proof (sf_den_pos f) as D.
  destruct (Z.eq_dec (sf_num f) 0) as [E|E].
  - exists 0, 0. unfold sci_digits, fabs. rewrite E. cbn [Z.abs Z.eqb]. split; [reflexivity|].
    split; [split; [lia|apply Z.pow_pos_nonneg; lia]|]. split; [lia|]. split; [congruence|]. split; [|split; congruence].
    apply sfQ_zero in E. pose proof (p10_pos (0 - Z.of_nat p)).
    setoid_replace (Qabs (Qabs (sfQ f) - inject_Z 0 * p10 (0 - Z.of_nat p))) with 0%Q; [lra|].
    rewrite E. change (inject_Z 0) with 0%Q. rewrite Qmult_0_l. reflexivity.
  - assert (N : 0 < fabs f) by (unfold fabs; lia). destruct H as [H|[H1 H2]]; [apply sfQ_zero in H; contradiction|].
    pose proof (sci_digits_spec p _ _ N D) as S. destruct (sci_digits p (fabs f) (sf_den f)) as [m e].
    destruct S as ((A & B) & C & F). exists m, e. rewrite <- sfQ_abs in F.
    destruct (floor_log10_spec _ _ N D) as [G1 G2]. rewrite <- sci_exponent_log, <- sfQ_abs in G1, G2.
    assert (R1 : sci_exponent (fabs f) (sf_den f) < 99) by (apply p10_lt_inv; lra).
    assert (R2 : -99 < sci_exponent (fabs f) (sf_den f) + 1) by (apply p10_lt_inv; lra).
    assert (0 < 10 ^ Z.of_nat p) by (apply Z.pow_pos_nonneg; lia).
    repeat split; auto; try lia.
Qed.

Lemma sign_num f : is_finite f = true -> sf_num f <> 0 -> sf_sign f = (sf_num f <? 0).
Proof.
  destruct f as [s|s| |s m e]; cbn [is_finite]; intros F N; try discriminate; try (exfalso; apply N; reflexivity).
  cbn [sf_sign]. symmetry. unfold sf_num. destruct s.
  - apply Z.ltb_lt. unfold cond_Zopp. assert (0 < 2 ^ Z.max 0 e) by (apply Z.pow_pos_nonneg; lia). nia.
  - apply Z.ltb_ge. unfold cond_Zopp. assert (0 < 2 ^ Z.max 0 e) by (apply Z.pow_pos_nonneg; lia). nia.
Qed.

(** the text that the helper makes, with or without the letter *)
Definition cpp_text (keepE : bool) (f : spec_float) (p : nat) (m e : Z) : str :=
  (sgn_text f ++ fixed_digits p m) ++ (if keepE then $"e" else []) ++ exp_sign e ++ str_of_nonneg (Z.abs e).

Lemma cpp_text_ok keepE f p m e : (1 <= p)%nat -> 0 <= m ->
  fortran_text (cpp_text keepE f p m e) (sf_sign f) m (e - Z.of_nat p).
Proof.
  intros Hp HN. destruct (fixed_digits_parts p m Hp HN) as (ip & fp & E & Di & Df & Ni & Nf & Lf & V).
  exists (sgn_text f), ip, $".", fp, (negb keepE), ((if keepE then $"e" else []) ++ exp_sign e ++ str_of_nonneg (Z.abs e)), e.
  split; [unfold cpp_text; rewrite E, <- !app_assoc; reflexivity|].
  split; [unfold sgn_text; destruct (sf_sign f); auto|]. split; [now apply digit_string_all|]. split; [now apply digit_string_all|].
  split; [destruct ip; [contradiction|discriminate]|]. split; [right; auto|].
  split; [|split; [auto|now rewrite Lf]].
  apply exponent_any. destruct keepE; auto.
Qed.

Lemma len_exp_sign e : length (exp_sign e) = 1%nat.
Proof. unfold exp_sign. now destruct (0 <=? e). Qed.
Lemma pre_length f p m : (1 <= p)%nat -> 0 <= m < 10 ^ (Z.of_nat p + 1) ->
  length (sgn_text f ++ fixed_digits p m) = ((if sf_sign f then 1 else 0) + 2 + p)%nat.
Proof.
  intros Hp [H0 H1]. rewrite app_length, fixed_digits_length by auto.
  assert (0 < 10 ^ Z.of_nat p) by (apply Z.pow_pos_nonneg; lia).
  rewrite ndigits_small.
  - unfold sgn_text. change (length $"-") with 1%nat. destruct (sf_sign f); cbn; lia.
  - split; [apply Z.div_pos; lia|]. apply Z.div_lt_upper_bound; [lia|]. rewrite Z.pow_add_r in H1 by lia. lia.
Qed.
Lemma cpp_text_length keepE f p m e : (1 <= p)%nat -> 0 <= m < 10 ^ (Z.of_nat p + 1) ->
  length (cpp_text keepE f p m e) =
  ((if sf_sign f then 1 else 0) + 3 + p + (if keepE then 1 else 0) + ndigits (Z.abs e))%nat.
Proof.
  intros Hp Hm. pose proof (pre_length f p m Hp Hm) as PL. unfold cpp_text. rewrite app_length, PL, !app_length.
  rewrite len_exp_sign, length_str_of_nonneg. destruct keepE; cbn; lia.
Qed.
Lemma helper_short (keepE : bool) p f m e : (1 <= p)%nat -> 0 <= m -> -99 <= e <= 99 -> sci_digits p (fabs f) (sf_den f) = (m, e) ->
  exists n x, float2endfstr_helper p f = (n, x) /\ n = cpp_text true f p m e /\
  (if keepE then n else erase n x) = cpp_text keepE f p m e.
Proof.
  intros Hp Hm He S. do 2 eexists. split; [exact (helper_text p f m e Hp Hm He S)|]. unfold cpp_text. split; [reflexivity|].
  destruct keepE; [reflexivity|]. apply erase_at.
Qed.

Lemma nd12 e : -99 <= e <= 99 -> ndigits (Z.abs e) = if Z.abs e <? 10 then 1%nat else 2%nat.
Proof. intros H. destruct (Z.ltb_spec (Z.abs e) 10); [now apply nd1|apply nd2; lia]. Qed.

(** the number of decimals *)
Definition decimals (o : cwopts) (f : spec_float) : nat :=
  ((if cw_keepE o then 5 else 6) + (if sf_nonneg f && cw_abuse o then 1 else 0))%nat.

Lemma float_text o f : cw_noexp o = false -> is_finite f = true -> two_digit_exponent f ->
  exists t m k (p : nat), float2endfstr o f = Val (rjust 11 t) /\ (length t <= 11)%nat /\
    fortran_text t (sf_sign f) m (k - Z.of_nat p) /\
    (Qabs (Qabs (sfQ f) - inject_Z m * p10 (k - Z.of_nat p)) <= (1 # 2) * p10 (k - Z.of_nat p))%Q /\
    m < 10 ^ (Z.of_nat p + 1) /\ (sf_num f <> 0 -> 10 ^ Z.of_nat p <= m) /\ -99 <= k <= 99 /\
    (sf_num f <> 0 -> p = decimals o f /\ Z.abs k < 10 \/ p = (decimals o f - 1)%nat /\ 9 <= Z.abs k) /\
    (4 <= p)%nat.
Proof.
  intros NE Fin R. unfold float2endfstr. rewrite NE. fold (decimals o f).
  set (af := decimals o f).
  assert (AF : (5 <= af <= 7)%nat) by (unfold af, decimals; destruct (cw_keepE o), (sf_nonneg f && cw_abuse o); cbn; lia).
  destruct (digits_of af f ltac:(lia) R) as (m1 & e1 & S1 & M1 & E1 & L1 & Q1 & Z1 & X1).
  destruct (helper_short (cw_keepE o) af f m1 e1 ltac:(lia) ltac:(lia) E1 S1) as (n1 & x1 & -> & H1 & H1').
  set (red := Z.of_nat (length n1) - Z.of_nat (if sf_nonneg f && cw_abuse o then 11%nat else 10%nat) - (if cw_keepE o then 0 else 1) -
      (if sf_num f <? 0 then 1 else 0)).
  assert (RED : red = Z.of_nat (ndigits (Z.abs e1)) - 1 + (if sf_sign f then 1 else 0) - (if sf_num f <? 0 then 1 else 0)).
  { unfold red. rewrite H1, cpp_text_length by (auto; lia). unfold af, decimals.
    destruct (cw_keepE o), (sf_nonneg f && cw_abuse o), (sf_sign f), (sf_num f <? 0); lia. }
  destruct (Z.ltb_spec 0 red) as [RP|RP].
  - assert (CASES : (sf_num f <> 0 /\ red = 1 /\ 10 <= Z.abs e1) \/ (sf_num f = 0 /\ red = 1)).
    { destruct (Z.eq_dec (sf_num f) 0) as [Ez|Ez].
      - right. split; auto. rewrite RED, (Z1 Ez) in *. rewrite Ez in *. cbn [Z.abs] in *. change (ndigits 0) with 1%nat in *. change (0 <? 0) with false in *.
        destruct (sf_sign f); lia.
      - left. split; auto. rewrite (sign_num f Fin Ez) in RED. rewrite (nd12 e1 E1) in RED.
        destruct (Z.ltb_spec (Z.abs e1) 10); destruct (sf_num f <? 0); lia. }
    assert (red = 1) as R1 by tauto. rewrite R1. change (Z.to_nat 1) with 1%nat.
    destruct (digits_of (af - 1) f ltac:(lia) R) as (m2 & e2 & S2 & M2 & E2 & L2 & Q2 & Z2 & X2).
    destruct (helper_short (cw_keepE o) (af - 1) f m2 e2 ltac:(lia) ltac:(lia) E2 S2) as (n2 & x2 & -> & _ & H2).
    rewrite H2. cbn [cbind]. exists (cpp_text (cw_keepE o) f (af - 1) m2 e2), m2, e2, (af - 1)%nat.
    split; [reflexivity|]. split.
    { rewrite cpp_text_length by (auto; lia). rewrite (nd12 e2 E2).
      assert (SG : sf_sign f = true -> sf_num f <> 0 -> sf_nonneg f = false).
      { intros A B. rewrite (sign_num f Fin B) in A. unfold sf_nonneg. apply Z.ltb_lt in A. apply Z.leb_gt. lia. }
      destruct (Z.eq_dec (sf_num f) 0) as [Ez|Ez].
      - rewrite (Z2 Ez). cbn [Z.abs Z.ltb Z.compare]. unfold af, decimals. destruct (cw_keepE o), (sf_nonneg f && cw_abuse o), (sf_sign f); lia.
      - unfold af, decimals. destruct (sf_sign f) eqn:Sf.
        + rewrite SG by auto. cbn [andb]. destruct (cw_keepE o), (Z.abs e2 <? 10); lia.
        + destruct (cw_keepE o), (sf_nonneg f && cw_abuse o), (Z.abs e2 <? 10); lia. }
    split; [apply cpp_text_ok; lia|]. split; [exact Q2|]. split; [lia|]. split; [exact L2|]. split; [exact E2|]. split; [|lia].
    intros Nz. right. split; [reflexivity|]. destruct CASES as [(_ & _ & B)|(B & _)]; [|contradiction].
    specialize (X1 Nz). specialize (X2 Nz). lia.
  - assert (CASE : Z.abs e1 < 10).
    { rewrite (nd12 e1 E1) in RED. destruct (Z.ltb_spec (Z.abs e1) 10); auto. exfalso.
      destruct (Z.eq_dec (sf_num f) 0) as [Ez|Ez]; [rewrite (Z1 Ez) in *; cbn in *; lia|].
      rewrite (sign_num f Fin Ez) in RED. destruct (sf_num f <? 0); lia. }
    rewrite H1'. cbn [cbind]. exists (cpp_text (cw_keepE o) f af m1 e1), m1, e1, af.
    split; [reflexivity|]. split.
    { rewrite cpp_text_length by (auto; lia). rewrite (nd1 e1 CASE) in *.
      unfold af, decimals. destruct (sf_num f <? 0) eqn:Neg.
      - assert (sf_nonneg f = false) as -> by (unfold sf_nonneg; apply Z.ltb_lt in Neg; apply Z.leb_gt; lia). cbn [andb].
        destruct (cw_keepE o), (sf_sign f); lia.
      - assert (sf_sign f = false) as -> by (destruct (sf_sign f); [lia|reflexivity]).
        destruct (cw_keepE o), (sf_nonneg f && cw_abuse o); lia. }
    split; [apply cpp_text_ok; lia|]. split; [exact Q1|]. split; [lia|]. split; [exact L1|]. split; [exact E1|]. split; [|lia].
    intros Nz. left. split; auto.
Qed.

(** ** Decimal notation *)

Lemma fixed_point p N : (1 <= p)%nat -> fixed_digits p N = str_of_nonneg (N / 10 ^ Z.of_nat p) ++ "."%char :: digits_fixed p (N mod 10 ^ Z.of_nat p).
Proof. intros H. unfold fixed_digits. destruct p; [lia|reflexivity]. Qed.

Lemma point_at f p N : (1 <= p)%nat ->
  index_chr "."%char (sgn_text f ++ fixed_digits p N) = ((if sf_sign f then 1 else 0) + ndigits (N / 10 ^ Z.of_nat p))%nat.
Proof.
  intros H. assert (NP : ~ In "."%char (sgn_text f ++ str_of_nonneg (N / 10 ^ Z.of_nat p))).
  { intros J. apply in_app_iff in J as [J|J].
    - unfold sgn_text in J. destruct (sf_sign f); cbn in J; [destruct J as [J|[]]; discriminate|destruct J].
    - pose proof (str_of_nonneg_digits (N / 10 ^ Z.of_nat p)) as D. unfold all_digits in D. rewrite Forall_forall in D.
      apply D in J. discriminate. }
  rewrite fixed_point, app_assoc, index_chr_app, app_length, length_str_of_nonneg by auto.
  unfold sgn_text. destruct (sf_sign f); reflexivity.
Qed.

(** the digits with [q] decimals of a number with [i] digits in front of the point *)
Lemma fixed_bounds f (i p q : nat) : (1 <= i)%nat -> (p <= q)%nat ->
  (i = 1%nat \/ (p10 (Z.of_nat i - 1) <= Qabs (sfQ f))%Q) -> (Qabs (sfQ f) <= p10 (Z.of_nat i) - p10 (- Z.of_nat p))%Q ->
  let N := rhe (fabs f * 10 ^ Z.of_nat q) (sf_den f) in
  0 <= N < 10 ^ (Z.of_nat i + Z.of_nat q) /\ ndigits (N / 10 ^ Z.of_nat q) = i /\
  (Qabs (Qabs (sfQ f) - inject_Z N * p10 (- Z.of_nat q)) <= (1 # 2) * p10 (- Z.of_nat q))%Q.
Proof.
  intros Hi Hq Lo Hi' N. rewrite sfQ_abs in Lo, Hi'. pose proof (sf_den_pos f) as D. set (n := fabs f) in *. set (d := sf_den f) in *.
  assert (P0 : 0 < 10 ^ Z.of_nat q) by (apply Z.pow_pos_nonneg; lia).
  assert (N0 : 0 <= n) by (unfold n, fabs; lia).
  assert (F : (frac (n * 10 ^ Z.of_nat q) d == frac n d * p10 (Z.of_nat q))%Q).
  { unfold frac. rewrite inject_Z_mult, p10_Z by lia. unfold Qdiv. ring. }
  pose proof (p10_pos (Z.of_nat q)) as Pq.
  assert (UP : N <= 10 ^ (Z.of_nat i + Z.of_nat q) - 10 ^ (Z.of_nat q - Z.of_nat p)).
  { pose proof (rhe_mono (n * 10 ^ Z.of_nat q) (d * (10 ^ (Z.of_nat i + Z.of_nat q) - 10 ^ (Z.of_nat q - Z.of_nat p))) d D) as Mo.
    rewrite rhe_exact in Mo by auto. apply Mo.
    assert (L : (frac (n * 10 ^ Z.of_nat q) d <= inject_Z (10 ^ (Z.of_nat i + Z.of_nat q) - 10 ^ (Z.of_nat q - Z.of_nat p)))%Q).
    { rewrite F. unfold Z.sub at 1. rewrite inject_Z_plus, inject_Z_opp, <- !p10_Z by lia.
      replace (Z.of_nat q - Z.of_nat p) with (- Z.of_nat p + Z.of_nat q) by lia. rewrite !p10_plus.
      setoid_replace (p10 (Z.of_nat i) * p10 (Z.of_nat q) + - (p10 (- Z.of_nat p) * p10 (Z.of_nat q)))%Q
        with ((p10 (Z.of_nat i) - p10 (- Z.of_nat p)) * p10 (Z.of_nat q))%Q by ring.
      apply Qmult_le_r; auto. }
    apply frac_le in L; auto. rewrite <- inject_Z_mult in L. apply (proj1 (iz_le _ _)) in L. lia. }
  assert (P1 : 0 < 10 ^ (Z.of_nat q - Z.of_nat p)) by (apply Z.pow_pos_nonneg; lia).
  assert (NN : 0 <= N) by (apply rhe_nonneg; auto; nia).
  split; [lia|]. split.
  - assert (A : N / 10 ^ Z.of_nat q < 10 ^ Z.of_nat i) by (apply Z.div_lt_upper_bound; [lia|]; rewrite Z.pow_add_r in UP by lia; lia).
    assert (B : 0 <= N / 10 ^ Z.of_nat q) by (apply Z.div_pos; lia).
    destruct (Nat.eq_dec i 1) as [->|Ni]; [apply ndigits_small; change (10 ^ Z.of_nat 1) with 10 in A; lia|].
    destruct Lo as [Lo|Lo]; [contradiction|]. apply nd_exact; auto. split; [|exact A].
    apply Z.div_le_lower_bound; [lia|].
    pose proof (rhe_mono (d * (10 ^ Z.of_nat q * 10 ^ (Z.of_nat i - 1))) (n * 10 ^ Z.of_nat q) d D) as Mo.
    rewrite rhe_exact in Mo by auto. apply Mo.
    apply le_frac in Lo; auto. rewrite p10_Z, <- inject_Z_mult in Lo by lia. apply (proj1 (iz_le _ _)) in Lo. nia.
  - pose proof (rhe_frac (n * 10 ^ Z.of_nat q) d D) as R. fold N in R. rewrite F in R. rewrite sfQ_abs. fold n d.
    assert (K : (p10 (Z.of_nat q) * p10 (- Z.of_nat q) == 1)%Q) by (rewrite Qmult_comm; apply p10_opp).
    pose proof (p10_pos (- Z.of_nat q)) as Pq'.
    setoid_replace (frac n d - inject_Z N * p10 (- Z.of_nat q))%Q with ((frac n d * p10 (Z.of_nat q) - inject_Z N) * p10 (- Z.of_nat q))%Q.
    + rewrite Qabs_Qmult, (Qabs_pos (p10 (- Z.of_nat q))) by lra. apply Qmult_le_r; auto.
    + setoid_replace ((frac n d * p10 (Z.of_nat q) - inject_Z N) * p10 (- Z.of_nat q))%Q
        with (frac n d * (p10 (Z.of_nat q) * p10 (- Z.of_nat q)) - inject_Z N * p10 (- Z.of_nat q))%Q by ring.
      rewrite K. ring.
Qed.

Lemma decimal_text f (i p : nat) : is_finite f = true -> sf_num f <> 0 -> (1 <= i)%nat -> (1 <= p <= 16)%nat ->
  (i = 1%nat \/ (p10 (Z.of_nat i - 1) <= Qabs (sfQ f))%Q) -> (Qabs (sfQ f) <= p10 (Z.of_nat i) - p10 (- Z.of_nat p))%Q ->
  let t := float2endfstr_decimal_helper (i + 1 + p) f in
  exists m, fortran_text t (sf_sign f) m (0 - Z.of_nat p) /\ length t = ((if sf_sign f then 1 else 0) + (i + 1 + p))%nat /\
  (Qabs (Qabs (sfQ f) - inject_Z m * p10 (- Z.of_nat p)) <= (1 # 2) * p10 (- Z.of_nat p))%Q.
Proof.
  intros Fin Nz Hi Hp Lo Up t.
  destruct (fixed_bounds f i p 16 Hi ltac:(lia) Lo Up) as (_ & D16 & _).
  destruct (fixed_bounds f i p p Hi ltac:(lia) Lo Up) as (B & Dp & Er).
  set (N := rhe (fabs f * 10 ^ Z.of_nat p) (sf_den f)) in *.
  assert (Et : t = sgn_text f ++ fixed_digits p N).
  { unfold t, float2endfstr_decimal_helper, format_fixed, format_f. fold (fabs f). change (if sf_sign f then $"-" else []) with (sgn_text f).
    rewrite point_at, D16 by lia.
    assert ((i + 1 + p <=? (if sf_sign f then 1 else 0) + i)%nat = false) as -> by (apply Nat.leb_gt; destruct (sf_sign f); lia).
    replace (i + 1 + p - ((if sf_sign f then 1 else 0) + i) - (if sf_nonneg f then 1 else 0))%nat with p; [reflexivity|].
    rewrite (sign_num f Fin Nz). unfold sf_nonneg. destruct (Z.ltb_spec (sf_num f) 0), (Z.leb_spec 0 (sf_num f)); lia. }
  exists N. rewrite Et. split; [|split; [|exact Er]].
  - destruct (fixed_digits_parts p N ltac:(lia) ltac:(lia)) as (ip & fp & E & Di & Df & Ni & Nf & Lf & V).
    exists (sgn_text f), ip, $".", fp, false, [], 0.
    split; [rewrite E, app_nil_r; reflexivity|].
    split; [unfold sgn_text; destruct (sf_sign f); auto|]. split; [now apply digit_string_all|]. split; [now apply digit_string_all|].
    split; [destruct ip; [contradiction|discriminate]|]. split; [right; auto|].
    split; [constructor|split; [auto|now rewrite Lf]].
  - rewrite app_length, fixed_digits_length, Dp by lia. unfold sgn_text. destruct (sf_sign f); cbn; lia.
Qed.
