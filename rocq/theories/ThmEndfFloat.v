(** C68: numbers that keep their text compare as numbers; arithmetic of recipes on numbers and lists. *)
From Coq Require Import Ascii String ZArith QArith Qabs Bool Lia Lqa List.
From Coq Require Import Floats.SpecFloat.
From Verif Require Import ProofFloat PyBase PyFloat ModelFortran ModelRecords ModelTape ModelNum ModelRecipe ModelInterp ModelEndfFloat.
From Verif Require Import SpecInterp SpecEndfFloat ProofPyBase ProofInterp ProofInterpCtl ProofInterpSec ProofInterpMap ProofRound3.
From Verif Require ProofMatch.
Import ListNotations.
Open Scope Z_scope.

Lemma builtin_spec r a b : builtin_rel r a b = true <-> rel_num r a b.
Proof.
  pose proof (val_cmp_spec r (VNum a) (VNum b) (builtin_rel r a b)) as H. apply H. destruct r; reflexivity.
Qed.

Lemma small_float z : Z.abs z <= 2 ^ 53 -> exists f, as_float (NInt z) = Ok f /\ is_finite f = true /\ (numQ (NFlt f) == inject_Z z)%Q.
Proof.
  intros H. assert (exists f, round64_signed z 1 = f /\ is_finite f = true /\ (ProofFloat.val f == inject_Z z)%Q) as (f & E & F & V).
  { unfold round64_signed. destruct (Z.ltb_spec z 0).
    - destruct (round64_int true (- z) ltac:(lia)) as [F V]. eexists. split; [reflexivity|]. split; [exact F|].
      rewrite V. unfold sgnQ. rewrite inject_Z_opp. ring.
    - destruct (round64_int false z ltac:(lia)) as [F V]. eexists. split; [reflexivity|]. split; [exact F|].
      rewrite V. unfold sgnQ. ring. }
  exists f. split.
  - unfold as_float. rewrite E. destruct f; try discriminate F; reflexivity.
  - split; [exact F|]. rewrite <- V. unfold numQ, sfQ, ProofFloat.val, frac, qof.
    pose proof (sf_den_pos f). rewrite Qmake_Qdiv, Z2Pos.id by assumption. reflexivity.
Qed.

Lemma rel_num_ext r a a' b b' : num_finite a = true -> num_finite a' = true -> (numQ a == numQ a')%Q ->
  num_finite b = true -> num_finite b' = true -> (numQ b == numQ b')%Q -> rel_num r a b <-> rel_num r a' b'.
Proof.
  intros F1 F2 E F3 F4 E'. unfold rel_num. rewrite F1, F2, F3, F4. cbn [andb]. destruct r; rewrite E, E'; reflexivity.
Qed.

Lemma rel_num_bare r a b : rel_num r (bare a) (bare b) <-> rel_num r a b.
Proof. destruct a, b; reflexivity. Qed.

(** Two numbers compare by their values, whether or not they are EndfFloats, on either side of the operator, for ints
    that floats represent exactly. *)
Theorem C68_compare : forall r a b, small a -> small b -> exists t, py_rel r a b = Ok t /\ (t = true <-> rel_num r a b).
Proof.
  assert (R : forall r x y, rel_num (reflected r) x y <-> rel_num r y x).
  { intros r x y. rewrite <- !builtin_spec. unfold builtin_rel, num_eqb, num_ltb, num_leb. rewrite (ProofMatch.num_cmp_sym x y).
    destruct (num_cmp x y) as [[]|]; destruct r; reflexivity. }
  assert (E : forall r f b, small b -> exists t, endf_rel r f b = Ok t /\ (t = true <-> rel_num r (NFlt f) b)).
  { intros r f [z|g|g s] S; unfold endf_rel.
    - destruct (small_float z S) as (g & -> & Fg & V). cbn [bind]. eexists. split; [reflexivity|]. rewrite builtin_spec.
      destruct (is_finite f) eqn:Ff.
      + apply rel_num_ext; try assumption; try reflexivity.
      + unfold rel_num. cbn [num_finite]. rewrite Ff. cbn [andb]. unfold num_cmp. cbn [sf_of].
        destruct f; try discriminate Ff; destruct g; try discriminate Fg; reflexivity.
    - cbn [as_float bind]. eexists. split; [reflexivity|]. apply builtin_spec.
    - cbn [as_float bind]. eexists. split; [reflexivity|]. rewrite builtin_spec. apply (rel_num_bare r (NFlt f) (NEndf g s)). }
  intros r a b Sa Sb. destruct a as [z|f|f s].
  - destruct b as [y|g|g s]; [cbn [py_rel]; eexists; (split; [reflexivity|]); apply builtin_spec..|].
    cbn [py_rel]. destruct (E (reflected r) g (NInt z) Sa) as (t & -> & H). exists t. split; [reflexivity|]. rewrite H, R.
    apply (rel_num_bare r (NInt z) (NEndf g s)).
  - destruct b as [y|g|g s]; [cbn [py_rel]; eexists; (split; [reflexivity|]); apply builtin_spec..|].
    cbn [py_rel]. destruct (E (reflected r) g (NFlt f) Sa) as (t & -> & H). exists t. split; [reflexivity|]. rewrite H, R.
    apply (rel_num_bare r (NFlt f) (NEndf g s)).
  - cbn [py_rel]. destruct (E r f b Sb) as (t & -> & H). exists t. split; [reflexivity|]. rewrite H.
    destruct b; reflexivity.
Qed.
Print Assumptions C68_compare.

(** So the text of a number has no influence on any comparison. *)
Theorem C68_text : forall r a b, small a -> small b -> py_rel r a b = py_rel r (bare a) (bare b).
Proof.
  intros r a b Sa Sb. destruct (C68_compare r a b Sa Sb) as (t & -> & H).
  assert (small (bare a)) by (destruct a; assumption). assert (small (bare b)) by (destruct b; assumption).
  destruct (C68_compare r (bare a) (bare b)) as (u & -> & K); [assumption..|].
  rewrite rel_num_bare, <- H in K. f_equal. destruct t, u; try reflexivity; [symmetry; now apply K|now apply K].
Qed.
Print Assumptions C68_text.

(** Of two finite numbers exactly one is smaller, or they are equal; <= is transitive. *)
Theorem C68_order : forall a b, small a -> small b -> num_finite a = true -> num_finite b = true ->
  (py_rel RLt a b = Ok true /\ py_rel REq a b = Ok false /\ py_rel RGt a b = Ok false) \/
  (py_rel RLt a b = Ok false /\ py_rel REq a b = Ok true /\ py_rel RGt a b = Ok false) \/
  (py_rel RLt a b = Ok false /\ py_rel REq a b = Ok false /\ py_rel RGt a b = Ok true).
Proof.
  intros a b Sa Sb Fa Fb.
  destruct (C68_compare RLt a b Sa Sb) as (t & -> & T), (C68_compare REq a b Sa Sb) as (u & -> & U), (C68_compare RGt a b Sa Sb) as (w & -> & W).
  unfold rel_num in *. rewrite Fa, Fb in *. cbn [andb] in *.
  assert (D : forall (x : bool) (P : Prop), (x = true <-> P) -> ~ P -> x = false) by (intros [] P Hx N; [exfalso; apply N, Hx|]; reflexivity).
  destruct (Q_dec (numQ a) (numQ b)) as [[L|L]|L].
  - left. rewrite (proj2 T L), (D _ _ U), (D _ _ W); [auto|lra|lra].
  - right. right. rewrite (proj2 W L), (D _ _ U), (D _ _ T); [auto|lra|lra].
  - right. left. rewrite (proj2 U L), (D _ _ T), (D _ _ W); [auto|lra|lra].
Qed.
Print Assumptions C68_order.
Theorem C68_transitive : forall a b c, small a -> small b -> small c -> num_finite a = true -> num_finite b = true -> num_finite c = true ->
  py_rel RLe a b = Ok true -> py_rel RLe b c = Ok true -> py_rel RLe a c = Ok true.
Proof.
  intros a b c Sa Sb Sc Fa Fb Fc H K.
  destruct (C68_compare RLe a b Sa Sb) as (t & E & T), (C68_compare RLe b c Sb Sc) as (u & E' & U), (C68_compare RLe a c Sa Sc) as (w & -> & W).
  rewrite H in E. rewrite K in E'. injection E as <-. injection E' as <-. f_equal. apply W.
  pose proof (proj1 T eq_refl) as T'. pose proof (proj1 U eq_refl) as U'. unfold rel_num in *. rewrite Fa, Fb, Fc in *. cbn [andb] in *. lra.
Qed.
Print Assumptions C68_transitive.

(** An EndfFloat made from a number keeps its text, and compares with everything as the number does. *)
Theorem C68_new : forall v s, small v -> exists f, endf_float v s = Ok (NEndf f s) /\
  forall r b, small b -> py_rel r (NEndf f s) b = py_rel r v b /\ py_rel r b (NEndf f s) = py_rel r b v.
Proof.
  intros v s Sv. assert (exists f, as_float v = Ok f /\ num_finite v = is_finite f /\
    (is_finite f = true -> numQ (NFlt f) == numQ v)%Q /\ (is_finite f = false -> bare v = NFlt f)) as (f & A & F & V & B).
  { destruct v as [z|g|g o].
    - destruct (small_float z Sv) as (f & -> & F & V). exists f. rewrite F. repeat split; [intros _; exact V|discriminate].
    - exists g. repeat split; intros _; reflexivity.
    - exists g. repeat split; intros _; reflexivity. }
  exists f. unfold endf_float. rewrite A. cbn [bind]. split; [reflexivity|].
  assert (N : forall r b, (rel_num r (NFlt f) b <-> rel_num r v b) /\ (rel_num r b (NFlt f) <-> rel_num r b v)).
  { intros r b. destruct (is_finite f) eqn:Ff.
    - assert (forall x, num_finite b = false -> num_finite x = true -> num_cmp x b = num_cmp (NInt 0) b /\ num_cmp b x = num_cmp b (NInt 0)) as K.
      { intros x Fb Fx. unfold num_cmp. destruct b as [|[]|[]]; try discriminate Fb; destruct x as [|[]|[]]; try discriminate Fx; split; reflexivity. }
      destruct (num_finite b) eqn:Fb.
      + split; apply rel_num_ext; auto; reflexivity.
      + unfold rel_num. rewrite F, Fb. cbn [num_finite]. rewrite Ff. cbn [andb].
        destruct (K v eq_refl F) as [-> ->], (K (NFlt f) eq_refl Ff) as [-> ->]. split; reflexivity.
    - specialize (B eq_refl). rewrite <- (rel_num_bare r v b), <- (rel_num_bare r b v), B.
      split; symmetry; [exact (rel_num_bare r (NFlt f) b)|exact (rel_num_bare r b (NFlt f))]. }
  assert (D : forall (t u : bool) (P Q : Prop), (t = true <-> P) -> (u = true <-> Q) -> (P <-> Q) -> @Ok bool t = Ok u).
  { intros t u P Q H1 H2 H3. f_equal. apply eq_true_iff_eq. tauto. }
  intros r b Sb. split.
  - destruct (C68_compare r (NEndf f s) b Logic.I Sb) as (t & -> & T), (C68_compare r v b Sv Sb) as (u & -> & U).
    exact (D _ _ _ _ T U (iff_trans (iff_sym (rel_num_bare r (NEndf f s) b)) (iff_trans (rel_num_bare r (NFlt f) b) (proj1 (N r b))))).
  - destruct (C68_compare r b (NEndf f s) Sb Logic.I) as (t & -> & T), (C68_compare r b v Sb Sv) as (u & -> & U).
    exact (D _ _ _ _ T U (iff_trans (iff_sym (rel_num_bare r b (NEndf f s))) (iff_trans (rel_num_bare r b (NFlt f)) (proj2 (N r b))))).
Qed.
Print Assumptions C68_new.

(** what the hypotheses are about: an EndfFloat read from a file against an int, a float and another text *)
Example C68_compare_example : exists f g, endf_float (NFlt f) $" 1.500000+0" = Ok (NEndf f $" 1.500000+0") /\ f <> g /\
  py_rel RLt (NEndf f $" 1.500000+0") (NInt 2) = Ok true /\ py_rel RGt (NInt 2) (NEndf f $" 1.500000+0") = Ok true /\
  py_rel REq (NEndf f $" 1.500000+0") (NEndf f $"1.5") = Ok true /\ py_rel RGe (NFlt g) (NEndf f $"1.5") = Ok false /\ small (NInt 2).
Proof. exists (round64 false 3 2), (round64 false 1 2). vm_compute. repeat split; discriminate. Qed.

(** A larger int is rounded first: an EndfFloat equals an int that its float differs from, and the comparison can fail. *)
Theorem C68_large_refuted : exists f s z y, is_finite f = true /\
  py_rel REq (NEndf f s) (NInt z) = Ok true /\ py_rel REq (NFlt f) (NInt z) = Ok false /\
  py_rel RLt (NEndf f s) (NInt y) = Err OverflowError /\ py_rel RLt (NFlt f) (NInt y) = Ok true.
Proof.
  exists (round64 false (2 ^ 53) 1), $"9.0072+15", (2 ^ 53 + 1), (2 ^ 1024). vm_compute. repeat split.
Qed.
Print Assumptions C68_large_refuted.

(** int(x) of an EndfFloat is its value without the fraction. *)
Theorem C68_int : forall f z, endf_int f = Ok z <->
  is_finite f = true /\ (0 <= numQ (NFlt f) -> inject_Z z <= numQ (NFlt f) < inject_Z (z + 1))%Q /\
  (numQ (NFlt f) < 0 -> inject_Z (z - 1) < numQ (NFlt f) <= inject_Z z)%Q.
Proof.
  intros f z. pose proof (sf_den_pos f) as D.
  assert (X : (Z.quot (sf_num f) (sf_den f) = z) <-> (0 <= numQ (NFlt f) -> inject_Z z <= numQ (NFlt f) < inject_Z (z + 1))%Q /\
    (numQ (NFlt f) < 0 -> inject_Z (z - 1) < numQ (NFlt f) <= inject_Z z)%Q).
  { unfold numQ, sfQ, qof, inject_Z, Qle, Qlt. cbn [Qnum Qden]. rewrite Z2Pos.id by exact D.
    rewrite !Z.mul_1_r. change (Z.neg 1) with (-1). set (n := sf_num f). set (d := sf_den f) in *.
    destruct (Z.le_gt_cases 0 n) as [P|P].
    - rewrite Z.quot_div_nonneg by assumption. split.
      + intros <-. split; intros ?; [|lia]. pose proof (Z.div_mod n d). pose proof (Z.mod_pos_bound n d D). nia.
      + intros [H _]. specialize (H ltac:(lia)). symmetry. apply (Z.div_unique n d z (n - d * z)); nia.
    - assert (Z.quot n d = - (- n / d)) as -> by (rewrite <- Z.quot_div_nonneg, Z.quot_opp_l by lia; lia). split.
      + intros <-. split; intros ?; [lia|]. pose proof (Z.div_mod (- n) d). pose proof (Z.mod_pos_bound (- n) d D). nia.
      + intros [_ H]. specialize (H ltac:(lia)). assert (- z = - n / d); [|lia]. apply (Z.div_unique (- n) d (- z) (- n + d * z)); nia. }
  rewrite <- X. unfold endf_int. destruct f; cbn [is_finite]; split; try discriminate; try (intros [? _]; discriminate);
    try (intros H; injection H as <-; split; reflexivity); intros [_ ->]; reflexivity.
Qed.
Print Assumptions C68_int.
Example C68_int_example : endf_int (round64 false 5 2) = Ok 2 /\ endf_int (round64 true 5 2) = Ok (-2) /\ endf_int S754_nan = Err ValueError.
Proof. vm_compute. auto. Qed.

(** EndfFloats cannot be used in arithmetic expressions. *)
Theorem C68_no_arithmetic : forall f s b cast,
  (forall op, In op [math_add; math_sub; math_mul; math_mod; math_div cast] ->
     op (VNum (NEndf f s)) (VNum b) = Err TypeError /\ op (VNum b) (VNum (NEndf f s)) = Err TypeError) /\
  math_neg (VNum (NEndf f s)) = Err TypeError.
Proof.
  intros f s b cast. split; [|reflexivity]. intros op H. cbn [In] in H.
  repeat (destruct H as [<-|H]; [split; destruct b; reflexivity|]). destruct H.
Qed.
Print Assumptions C68_no_arithmetic.

(** The quotient of two ints below 2^53 is an int if and only if the division is exact; otherwise it is refused with
    cast_int and is the nearest float without it. *)
Theorem C68_div : forall x y, Z.abs x < 2 ^ 53 -> Z.abs y < 2 ^ 53 ->
  (forall q, y <> 0 -> x = q * y -> forall cast, math_div cast (vint x) (vint y) = Ok (vint q)) /\
  (y <> 0 -> ~ (y | x) -> math_div true (vint x) (vint y) = Err InvalidIntegerError /\
     exists f, math_div false (vint x) (vint y) = Ok (VNum (NFlt f)) /\ is_finite f = true /\
       forall g, is_finite g = true -> valid64 g ->
         (Qabs (sfQ f - inject_Z x / inject_Z y) <= Qabs (sfQ g - inject_Z x / inject_Z y))%Q) /\
  (y = 0 -> forall cast, math_div cast (vint x) (vint y) = Err ZeroDivisionError).
Proof.
  intros x y Bx By. unfold math_div, vint, num_div, n_div. split; [|split].
  - intros q Y -> cast. destruct (Z.eqb_spec y 0); [contradiction|].
    assert (Z.abs q <= 2 ^ 53) as Bq by nia. rewrite (Z.mul_comm q y). destruct (int_quot_mul y q Y Bq) as (F & I & Q).
    destruct (int_quot (y * q) y) eqn:E; try discriminate F; cbn [bind]; rewrite I, Q; reflexivity.
  - intros Y N. destruct (Z.eqb_spec y 0); [contradiction|].
    assert (F : is_finite (int_quot x y) = true /\ forall g, is_finite g = true -> valid64 g ->
         (Qabs (sfQ (int_quot x y) - inject_Z x / inject_Z y) <= Qabs (sfQ g - inject_Z x / inject_Z y))%Q).
    { assert (O : (frac (Z.abs x) (Z.abs y) < ovf)%Q).
      { apply Qle_lt_trans with (inject_Z (2 ^ 53)); [|reflexivity]. unfold frac. apply Qle_shift_div_r.
        - change 0%Q with (inject_Z 0). rewrite <- Zlt_Qlt. lia.
        - rewrite <- inject_Z_mult, <- Zle_Qle. nia. }
      assert (S : forall g, (sfQ g == ProofFloat.val g)%Q).
      { intros g. unfold sfQ, ProofFloat.val, frac, qof. pose proof (sf_den_pos g). rewrite Qmake_Qdiv, Z2Pos.id by assumption. reflexivity. }
      assert (V : (inject_Z x / inject_Z y == sgnQ (xorb (x <? 0) (y <? 0)) * frac (Z.abs x) (Z.abs y))%Q).
      { assert (NQ : ~ (inject_Z y == 0)%Q) by (intros Z0; apply Y; unfold Qeq in Z0; cbn in Z0; lia).
        unfold frac, sgnQ. destruct (Z.ltb_spec x 0), (Z.ltb_spec y 0); cbn [xorb];
          rewrite ?(Z.abs_neq x), ?(Z.abs_eq x), ?(Z.abs_neq y), ?(Z.abs_eq y), ?inject_Z_opp by lia; field; exact NQ. }
      split; [apply round64_spec; [lia|lia|exact O]|].
      intros g Fg Vg. rewrite !S, V. apply round64_nearest; [lia|lia|exact O|exact Fg|exact Vg]. }
    destruct F as [F Nr]. assert (I : sf_integral (int_quot x y) = false).
    { destruct (sf_integral (int_quot x y)) eqn:I; [|reflexivity]. exfalso. apply N.
      pose proof (int_quot_exact x y Y Bx By I) as E. eexists. exact E. }
    destruct (int_quot x y) eqn:E; try discriminate F; cbn [bind]; rewrite I; (split; [reflexivity|]); eexists; (split; [reflexivity|]); auto.
  - intros -> cast. reflexivity.
Qed.
Print Assumptions C68_div.
Example C68_div_example : math_div true (vint 12) (vint (-4)) = Ok (vint (-3)) /\ math_div true (vint 7) (vint 2) = Err InvalidIntegerError /\
  math_div false (vint 7) (vint 2) = Ok (VNum (NFlt (round64 false 7 2))) /\ ~ (2 | 7).
Proof. repeat (split; [vm_compute; reflexivity|]). intros [k H]. lia. Qed.
(** For larger ints an inexact quotient can be accepted as exact. *)
Theorem C68_div_refuted : exists x y q, y <> 0 /\ x <> q * y /\ math_div true (vint x) (vint y) = Ok (vint q).
Proof. exists (2 ^ 53 + 1), 2, (2 ^ 52). vm_compute. repeat split; discriminate. Qed.
Print Assumptions C68_div_refuted.

(** Sums, differences and products of lists of ints are exact and element by element; lists of different lengths are
    refused. *)
Theorem C68_lists : forall op f, In (op, f) [(math_add, Z.add); (math_sub, Z.sub); (math_mul, Z.mul)] ->
  forall a b z,
  (length a = length b -> exists l, op (vints a) (vints b) = Ok (vints l) /\ length l = length a /\
     forall i x y, nth_error a i = Some x -> nth_error b i = Some y -> nth_error l i = Some (f x y)) /\
  (length a <> length b -> op (vints a) (vints b) = Err ValueError) /\
  op (vints a) (vint z) = Ok (vints (map (fun x => f x z) a)) /\ op (vint z) (vints b) = Ok (vints (map (f z) b)).
Proof.
  intros op f H a b z.
  assert (exists g, op = math_op g /\ forall x y, g (NInt x) (NInt y) = Ok (NInt (f x y))) as (g & -> & G).
  { cbn [In] in H. destruct H as [H|[H|[H|[]]]]; injection H as <- <-; eexists; (split; [reflexivity|]); reflexivity. }
  clear H. unfold math_op, vints, vint. cbv zeta. rewrite !map_length. split; [|split; [|split]].
  - intros L. exists (map (fun p => f (fst p) (snd p)) (combine a b)). split; [|split].
    + rewrite L, Nat.eqb_refl. clear z. revert b L. induction a as [|x a IH]; intros [|y b] L; try discriminate; [reflexivity|].
      cbn [map combine]. specialize (IH b ltac:(now injection L)). cbn [mapM fst snd as_num bind] in *. rewrite G. cbn [bind].
      destruct (mapM _ (combine (map _ a) (map _ b))) as [w|e]; cbn [bind] in *; [|discriminate]. injection IH as ->. reflexivity.
    + rewrite map_length, combine_length, L. apply Nat.min_id.
    + clear L. revert b. induction a as [|x a IH]; intros [|y b] [|i] x' y' A B; try discriminate.
      * cbn in *. congruence.
      * cbn in *. eauto.
  - intros L. destruct (Nat.eqb_spec (length a) (length b)); [contradiction|reflexivity].
  - clear b. induction a as [|x a IH]; [reflexivity|]. cbn [map mapM fst snd as_num bind] in *. rewrite G. cbn [bind].
    destruct (mapM _ (map _ a)) as [w|e]; cbn [bind] in *; [|discriminate]. injection IH as ->. reflexivity.
  - clear a. induction b as [|x a IH]; [reflexivity|]. cbn [map mapM fst snd as_num bind] in *. rewrite G. cbn [bind].
    destruct (mapM _ (map _ a)) as [w|e]; cbn [bind] in *; [|discriminate]. injection IH as ->. reflexivity.
Qed.
Print Assumptions C68_lists.
Example C68_lists_example : math_sub (vints [5; 7]) (vints [1; 2]) = Ok (vints [4; 5]) /\ math_mul (vint 3) (vints [1; 2]) = Ok (vints [3; 6]) /\
  math_add (vints [1]) (vints []) = Err ValueError.
Proof. vm_compute. auto. Qed.
