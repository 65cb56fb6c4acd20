(** Checks of fields and lines in the C++ templates. *)
From Coq Require Import Ascii String ZArith QArith Bool Lia List.
From Coq Require Import Floats.SpecFloat.
From Verif Require Import PyBase ProofPyBase PyFloat ProofFloat ModelFortran ModelRecords ModelTape ModelNum ModelRecipe
  SpecFields SpecFloat ModelInterp SpecInterp ProofInterpCtl ProofInterpMap ModelCpp ModelCppTab SpecCpp SpecCppTab ProofCppTab.
Import ListNotations.
Open Scope Z_scope.

(** ** Fields *)

Lemma double_value v : plain_number v -> num_finite (NFlt (cpp_double v)) = true /\ (numQ (NFlt (cpp_double v)) == numQ v)%Q.
Proof.
  intros H. destruct v as [z|f|f s]; cbn [plain_number cpp_double] in *.
  - unfold round64_signed. destruct (Z.ltb_spec z 0).
    + destruct (round64_int true (- z) ltac:(lia)) as [F V]. split; [exact F|].
      change (numQ (NFlt (round64 true (- z) 1))) with (sfQ (round64 true (- z) 1)). rewrite sfQ_val, V.
      unfold numQ, sgnQ. rewrite inject_Z_opp. ring.
    + destruct (round64_int false z ltac:(lia)) as [F V]. split; [exact F|].
      change (numQ (NFlt (round64 false z 1))) with (sfQ (round64 false z 1)). rewrite sfQ_val, V.
      unfold numQ, sgnQ. ring.
  - split; [exact H|reflexivity].
  - split; [exact H|reflexivity].
Qed.

Lemma plain_finite v : plain_number v -> num_finite v = true.
Proof. destruct v; cbn; auto. Qed.
Lemma double_eqb a b : plain_number a -> plain_number b -> num_eqb (NFlt (cpp_double a)) (NFlt (cpp_double b)) = num_eqb b a.
Proof.
  intros A B. destruct (double_value a A) as [FA VA]. destruct (double_value b B) as [FB VB].
  apply eq_true_iff_eq. rewrite !num_eqb_rel. unfold rel_num. rewrite FA, FB, (plain_finite _ A), (plain_finite _ B). cbn [andb].
  rewrite VA, VB. split; intros; now symmetry.
Qed.
Lemma zero_check v : is_zero_check v = true -> val_eqZ (VNum v) 0 = true.
Proof.
  unfold is_zero_check, val_eqZ. destruct v as [z|f|f s]; try discriminate.
  - intros H. apply Z.eqb_eq in H. subst. reflexivity.
  - destruct f; try discriminate. reflexivity.
Qed.
Lemma zero_check_conv v : plain_number v -> (forall f s, v <> NEndf f s) -> val_eqZ (VNum v) 0 = true -> is_zero_check v = true.
Proof.
  unfold is_zero_check, val_eqZ. intros P N H. apply num_eqb_rel in H. unfold rel_num in H.
  rewrite (plain_finite _ P) in H. cbn [num_finite andb numQ] in H.
  destruct v as [z|f|f s]; [| |now destruct (N f s)].
  - unfold inject_Z, Qeq in H. cbn in H. apply Z.eqb_eq. lia.
  - destruct f as [b|b| |b m e]; try discriminate; [reflexivity|exfalso].
    assert (NZ : sf_num (S754_finite b m e) <> 0).
    { unfold sf_num. assert (0 < 2 ^ Z.max 0 e) by (apply Z.pow_pos_nonneg; lia). destruct b; nia. }
    apply NZ. cbn [numQ] in H. unfold sfQ, qof, Qeq in H. cbn [Qnum Qden inject_Z] in H. lia.
Qed.
Lemma incons_variable e : has_incons e = true -> contains_variable e = true.
Proof.
  induction e; cbn; intros H; try discriminate; auto; apply orb_true_iff in H as [H|H]; rewrite ?IHe1, ?IHe2 by auto; auto; now rewrite orb_true_r.
Qed.

(** what C++ accepts Python accepts *)
Lemma validate_sound o e expected actual : o_fuzzy o = false -> plain_number expected -> plain_number actual ->
  cpp_validate_field (checks_of o) e expected actual = Val tt -> check_value o e (VNum actual) (VNum expected) = Ok tt.
Proof.
  intros OF P1 P2 H. unfold cpp_validate_field in H. unfold check_value. cbn [same_size val_len negb]. rewrite OF. cbn [bind].
  rewrite val_eqb_num. rewrite double_eqb in H by auto. destruct (num_eqb actual expected); [reflexivity|]. cbn [negb].
  cbn [checks_of cp_zero cp_number cp_varspec] in H.
  destruct (contains_variable e); cbn [negb] in H.
  - rewrite (andb_comm (o_varspec o)). destruct (has_incons e && o_varspec o); [|discriminate].
    destruct (o_zero o && _); [reflexivity|]. destruct (o_number o && _); reflexivity.
  - destruct (is_zero_check expected && o_zero o) eqn:Z.
    + apply andb_true_iff in Z as [Z1 Z2]. rewrite Z2, (zero_check _ Z1). reflexivity.
    + rewrite (andb_comm (o_number o)). destruct (has_desired e && o_number o); [|discriminate].
      destruct (o_zero o && _); reflexivity.
Qed.

(** a field without variables: both programs decide alike *)
Lemma validate_literal o e expected actual : o_fuzzy o = false -> o_all o = false -> contains_variable e = false ->
  plain_number expected -> plain_number actual -> (forall f s, expected <> NEndf f s) ->
  (cpp_validate_field (checks_of o) e expected actual = Val tt /\ check_value o e (VNum actual) (VNum expected) = Ok tt) \/
  (cpp_validate_field (checks_of o) e expected actual = Throw /\ check_value o e (VNum actual) (VNum expected) = Err NumberMismatchError).
Proof.
  intros OF OA CV P1 P2 NE. unfold cpp_validate_field, check_value. cbn [same_size val_len negb]. rewrite OF, OA, CV. cbn [bind negb].
  rewrite val_eqb_num, double_eqb by auto. destruct (num_eqb actual expected); [now left|]. cbn [negb checks_of cp_zero cp_number].
  assert (NI : has_incons e = false) by (destruct (has_incons e) eqn:I; auto; apply incons_variable in I; congruence).
  rewrite NI, andb_false_r.
  assert (ZC : is_zero_check expected = val_eqZ (VNum expected) 0).
  { apply eq_true_iff_eq. split; [apply zero_check|now apply zero_check_conv]. }
  rewrite ZC, (andb_comm (o_zero o)), (andb_comm (o_number o)).
  destruct (val_eqZ (VNum expected) 0 && o_zero o); [now left|]. destruct (has_desired e && o_number o); [now left|now right].
Qed.

(** ** The text of a number *)

Lemma written_as_read accept o (line : str) i v : (i < 6)%nat -> (66 <= length line)%nat ->
  cpp_read_endf_field accept true line i = Val v -> cpp_write_endf_field o true line i v = Val line.
Proof.
  intros I L H. unfold cpp_read_endf_field in H. destruct (cpp_read_float_field accept line i) as [f| |]; try discriminate.
  cbn [cbind] in H. inversion H; subst v. unfold cpp_write_endf_field, cpp_endf_text. cbn [ef_orig ef_value].
  assert (LF : length (cfield line i) = 11%nat) by (unfold cfield; rewrite length_slice; lia).
  destruct (cfield line i) as [|c r] eqn:E; [discriminate|]. rewrite <- E in *. cbn [cbind]. rewrite LF. cbn [Nat.eqb]. f_equal.
  unfold c_replace, cfield, slice. replace (11 * i)%nat with (i * 11)%nat by lia.
  replace (i * 11 + 11 - i * 11)%nat with 11%nat by lia.
  rewrite <- (firstn_skipn (i * 11) line) at 4. f_equal. rewrite <- (firstn_skipn 11 (skipn (i * 11) line)) at 2. f_equal.
  now rewrite skipn_skipn, Nat.add_comm.
Qed.

(** ** SEND records *)

Lemma send_checked accept c l r r' : cpp_read_send_checked accept true c (l :: r) = Val r' <->
  r' = r /\ cpp_control {| MAT := MAT c; MF := MF c; MT := 0 |} l /\ cpp_read_send accept l = Val true.
Proof.
  unfold cpp_read_send_checked. split.
  - destruct (cpp_read_line true _ (l :: r)) as [[l' r'']| |] eqn:E; try discriminate. cbn [cbind].
    apply read_line_inv in E as [E C]. inversion E; subst.
    destruct (cpp_read_send accept l') as [[|]| |] eqn:S; try discriminate. cbn [cbind].
    destruct C as (C1 & C2 & C3). rewrite C1, C2. cbn [cbind MAT MF]. rewrite !Z.eqb_refl. cbn [andb]. intros H; inversion H.
    repeat split; auto.
  - intros (-> & C & S). rewrite read_line_checked by auto. cbn [cbind]. rewrite S. cbn [cbind].
    destruct C as (C1 & C2 & C3). rewrite C1, C2. cbn [cbind MAT MF]. now rewrite !Z.eqb_refl.
Qed.
