(** C12 - C15: writing real numbers. The options range over abuse_signpos, skip_intzero,
    prefer_noexp, keep_E and all field widths from 9 to 15 (SpecLibm.field_width); what
    is assumed of the C library's log10 and pow is [libm_ok] (SpecLibm). *)
From Coq Require Import Ascii String ZArith QArith Qabs Bool Lia List.
From Coq Require Import Floats.SpecFloat.
From Verif Require Import PyBase PyFloat ModelFortran SpecFields SpecFloat SpecLibm
  ProofPyBase ProofFields ProofLibm ProofFloatWrite ProofFloatRound.
Import ListNotations.
Open Scope Z_scope.

(** The assumptions about the C library can be met, and in more than one way. *)
Theorem C12_libm_reference : libm_ok libm_ref /\ libm_ok libm_close.
Proof. exact (conj libm_ref_ok libm_close_ok). Qed.
Print Assumptions C12_libm_reference.

(** ** C12 *)

(** without prefer_noexp: every zero or normal double, and every integer in that range *)
Theorem C12_field_filled : forall wo v, libm_ok (w_libm wo) -> field_width wo ->
  w_noexp wo = false -> number v -> normal v ->
  exists s, float2fortstr wo v = Ok s /\ length s = w_width wo.
Proof. exact width_default. Qed.
Print Assumptions C12_field_filled.

(** all options *)
Theorem C12_field_filled_all_options : forall wo v, libm_ok (w_libm wo) -> field_width wo ->
  number v -> within (Qpower 2 (-1022)) (Qpower 10 308) v ->
  exists s, float2fortstr wo v = Ok s /\ length s = w_width wo.
Proof. exact width_all. Qed.
Print Assumptions C12_field_filled_all_options.

(** Finding: the range cannot be extended to all finite doubles, subnormal numbers fail. *)
Theorem C12_subnormal_refuted : exists v, number v /\ libm_ok (w_libm default_wo) /\
  float2fortstr default_wo v = Err ZeroDivisionError.
Proof. exact subnormal_refuted. Qed.
Print Assumptions C12_subnormal_refuted.

(** Infinities and nan are rejected under all options. *)
Theorem C12_not_finite_rejected : forall wo f, is_finite f = false ->
  exists e, float2fortstr wo (NFlt f) = Err e.
Proof. exact not_finite_rejected. Qed.
Print Assumptions C12_not_finite_rejected.

Example C12_example : number a_third /\ within (Qpower 2 (-1022)) (Qpower 10 308) a_third /\
  field_width default_wo /\
  float2fortstr default_wo a_third = Ok $" 3.333333-1" /\
  float2fortstr noexp_wo a_third = Ok $" 0.33333333" /\
  float2fortstr default_wo (NInt (-123456789)) = Ok $"-1.234568+8" /\
  float2fortstr default_wo (NInt 999999999) = Ok $" 1.000000+9".
Proof.
  split; [exact a_third_number|].
  split; [right; split; vm_compute; discriminate|]. split; [unfold field_width; cbn; lia|].
  repeat split; vm_compute; reflexivity.
Qed.

(** ** C13 *)

(** Without prefer_noexp the field contains, up to spaces, a text of the number
    [(-1)^neg * m * 10^(k-p)] with [p] decimals, [m] has [p+1] digits, and the error is
    at most half a unit of the last digit (plus the error of the floating-point division
    by the power of ten, which is below 2^-48 of the number). The number of decimals is
    as large as the width permits for the exponent's [x] digits. *)
Theorem C13_half_unit : forall wo v, libm_ok (w_libm wo) -> field_width wo ->
  w_noexp wo = false -> number v -> within (Qpower 2 (-1022)) (Qpower 10 308) v ->
  exists s t neg m k (p x : nat), float2fortstr wo v = Ok s /\ spread t s /\
    fortran_text t neg m (k - Z.of_nat p) /\ (neg = true <-> (num_value v < 0)%Q) /\
    (Qabs (Qabs (num_value v) - decimalQ m (k - Z.of_nat p))
       <= (1 # 2) * Qpower 10 (k - Z.of_nat p) + Qpower 2 (-48) * Qabs (num_value v))%Q /\
    ((num_value v == 0)%Q -> m = 0) /\
    (~ (num_value v == 0)%Q -> 10 ^ Z.of_nat p <= m < 10 ^ (Z.of_nat p + 1)) /\
    (w_width wo <= p + 5 + x)%nat /\ (1 <= x <= 3)%nat /\
    (~ just_below_limit v -> x = ndigits (Z.abs k)).
Proof. exact accuracy. Qed.
Print Assumptions C13_half_unit.

(** All options: the field is read back as a double with a small relative error
    (10^-3 at width 11). *)
Theorem C13_read_back : forall wo v, libm_ok (w_libm wo) -> field_width wo -> number v ->
  within (Qpower 2 (-1022)) (Qpower 10 308) v -> exact_int v ->
  exists s f, float2fortstr wo v = Ok s /\ length s = w_width wo /\
    is_finite f = true /\ valid64 f /\
    (forall ro, r_spaces ro = true -> (w_width wo <= r_width ro)%nat ->
      read_fort_float ro s = Ok (if r_preserve ro then NEndf f s else NFlt f)) /\
    (Qabs (sfQ f - num_value v) <= Qpower 10 (8 - Z.of_nat (w_width wo)) * Qabs (num_value v))%Q.
Proof. exact reread. Qed.
Print Assumptions C13_read_back.

(** No drift: the number read from the written text is written as a text that is read as
    the same number again; and it is the same text, except just below 1e-9 and 1e-99. *)
Theorem C13_no_drift : forall wo v, libm_ok (w_libm wo) -> field_width wo ->
  w_noexp wo = false -> number v -> within (Qpower 10 (-307)) (Qpower 10 308) v ->
  exists s s' f, float2fortstr wo v = Ok s /\ length s = w_width wo /\
    is_finite f = true /\ valid64 f /\
    float2fortstr wo (NFlt f) = Ok s' /\ length s' = w_width wo /\
    (forall ro, r_spaces ro = true -> r_preserve ro = false -> (w_width wo <= r_width ro)%nat ->
       read_fort_float ro s = Ok (NFlt f) /\ read_fort_float ro s' = Ok (NFlt f)) /\
    (~ just_below_limit v -> s' = s /\
       forall ro, r_preserve ro = false -> (w_width wo <= r_width ro)%nat ->
         read_fort_float ro s = Ok (NFlt f)).
Proof. exact rewrite_stable. Qed.
Print Assumptions C13_no_drift.

(** Finding: just below 1e-9 the text may contain a space in its exponent and change when
    it is read and written again; without accept_spaces it cannot be read. *)
Theorem C13_same_text_refuted : exists v s f s', number v /\ libm_ok (w_libm close_wo) /\
  float2fortstr close_wo v = Ok s /\ read_fort_float default_ro s = Ok (NFlt f) /\
  float2fortstr close_wo (NFlt f) = Ok s' /\ s' <> s /\
  forall ro, r_spaces ro = false -> r_width ro = 11%nat -> read_fort_float ro s = Err InvalidFloatError.
Proof. exact same_text_refuted. Qed.
Print Assumptions C13_same_text_refuted.

(** Finding: the largest double is written as a number that is read as infinity. *)
Theorem C13_largest_refuted : exists v s, number v /\ normal v /\ float2fortstr default_wo v = Ok s /\
  read_fort_float default_ro s = Ok (NFlt (S754_infinity false)).
Proof. exact largest_refuted. Qed.
Print Assumptions C13_largest_refuted.

Example C13_example : within (Qpower 10 (-307)) (Qpower 10 308) a_third /\ exact_int a_third /\
  ~ just_below_limit a_third /\ just_below_limit before_1em9.
Proof. exact C13_example_proof. Qed.

(** ** C14 *)

(** With prefer_noexp the number read back is at least as close as without. *)
Theorem C14_at_least_as_close : forall wo v, libm_ok (w_libm wo) -> field_width wo -> number v ->
  within (Qpower 2 (-1022)) (Qpower 10 308) v -> exact_int v ->
  exists s t f g, float2fortstr wo v = Ok s /\ float2fortstr (without_noexp wo) v = Ok t /\
    length s = w_width wo /\ length t = w_width wo /\
    (forall ro, r_spaces ro = true -> r_preserve ro = false -> (w_width wo <= r_width ro)%nat ->
       read_fort_float ro s = Ok (NFlt f) /\ read_fort_float ro t = Ok (NFlt g)) /\
    (Qabs (sfQ f - num_value v) <= Qabs (sfQ g - num_value v))%Q.
Proof. exact noexp_closer. Qed.
Print Assumptions C14_at_least_as_close.

Example C14_example : w_noexp noexp_wo = true /\
  float2fortstr noexp_wo (NInt 123456789) = Ok $"  123456789" /\
  float2fortstr (without_noexp noexp_wo) (NInt 123456789) = Ok $" 1.234568+8" /\
  float2fortstr noexp_wo (NFlt (round64 false 123456789 (10 ^ 15))) = Ok $" 1.234568-7".
Proof. repeat split; vm_compute; reflexivity. Qed.

(** ** C15 *)

Theorem C15_field_verbatim : forall ro wo s v, r_preserve ro = true ->
  w_width wo = r_width ro -> length s = r_width ro -> ~ blank s ->
  read_fort_float ro s = Ok v -> float2fortstr wo v = Ok s.
Proof. exact preserved_field. Qed.
Print Assumptions C15_field_verbatim.

(** all fields of a line *)
Theorem C15_line_verbatim : forall ro wo n, r_preserve ro = true -> w_width wo = r_width ro ->
  forall line vs, (n * r_width ro <= length line)%nat ->
  (forall i, (i < n)%nat -> ~ blank (slice (i * r_width ro) (i * r_width ro + r_width ro) line)) ->
  read_fort_floats ro line n = Ok vs ->
  write_fort_floats wo vs = Ok (firstn (n * r_width ro) line).
Proof. exact preserved_fields. Qed.
Print Assumptions C15_line_verbatim.

(** Finding: a blank field is not reproduced, and a field cut short at the end of the line
    cannot be written. *)
Theorem C15_blank_and_short_refuted :
  (exists s v t, length s = 11%nat /\ read_fort_float preserving_ro s = Ok v /\
     float2fortstr default_wo v = Ok t /\ t <> s) /\
  (exists s v, read_fort_float preserving_ro s = Ok v /\
     float2fortstr default_wo v = Err InvalidFloatError).
Proof. exact blank_and_short_refuted. Qed.
Print Assumptions C15_blank_and_short_refuted.

Example C15_example : exists v, read_fort_float preserving_ro $"  1.5E+ 3  " = Ok v /\
  ~ blank $"  1.5E+ 3  " /\ float2fortstr default_wo v = Ok $"  1.5E+ 3  ".
Proof.
  eexists. split; [vm_compute; reflexivity|]. split; [|vm_compute; reflexivity].
  intros B. specialize (B "1"%char). cbn in B. discriminate B. tauto.
Qed.
