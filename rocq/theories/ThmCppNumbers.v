(** C50: lists of numbers read by the C++ templates, real numbers written by them. *)
From Coq Require Import Ascii String ZArith QArith Qabs Bool Lia List.
From Coq Require Import Floats.SpecFloat.
From Verif Require Import PyBase PyFloat ModelFortran ModelRecords ModelTape SpecFields SpecFloat SpecLibm SpecTape
  ModelCpp SpecCpp ProofCpp ProofCppVec ProofCppFloat.
Import ListNotations.
Open Scope Z_scope.

(** ** The numbers of a LIST record or of a table *)

(** If Python reads [num] real numbers (at least one) from the lines, and they are in the range of the
    doubles, then C++ reads the same doubles and goes on with the same line. *)
Theorem C50_float_list : forall ro (lines : list str) num ofs vals ofs', r_width ro = 11%nat -> 0 < num ->
  (forall l : str, In l lines -> (66 <= length l)%nat) ->
  (forall k, (k < Z.to_nat num)%nat ->
     number_field (field_no lines ofs k) /\ field_in_range (r_spaces ro) (field_no lines ofs k)) ->
  read_endf_numbers ro false lines num ofs = Ok (vals, ofs') ->
  cpp_read_vec (cpp_read_float_field (r_spaces ro)) (Z.to_nat num) (skipn ofs lines) = Val (map double_of vals, skipn ofs' lines).
Proof. exact float_vector. Qed.
Print Assumptions C50_float_list.

(** The same for integers, if every field is a text of an integer. *)
Theorem C50_int_list : forall ro (lines : list str) num ofs zs ofs', r_width ro = 11%nat -> 0 < num ->
  (forall l : str, In l lines -> (66 <= length l)%nat) ->
  (forall k, (k < Z.to_nat num)%nat -> number_field (field_no lines ofs k) /\
     exists z, int32 z /\ read_fort_int (field_no lines ofs k) = Ok z) ->
  read_endf_numbers ro true lines num ofs = Ok (zs, ofs') ->
  exists ns, zs = map NInt ns /\
    cpp_read_vec cpp_read_int_field (Z.to_nat num) (skipn ofs lines) = Val (ns, skipn ofs' lines).
Proof. exact int_vector. Qed.
Print Assumptions C50_int_list.

(** eight integers on two lines *)
Definition ex_ints : list str :=
  [ $"          2          2         10          5         20          22625 3102    1";
    $"         -7          4                                            2625 3102    2";
    $" 0.000000+0 0.000000+0          0          0          0          02625 3  099999" ].
Example C50_int_list_example :
  (forall l : str, In l ex_ints -> (66 <= length l)%nat) /\
  (forall k, (k < Z.to_nat 8)%nat -> number_field (field_no ex_ints 0 k) /\
     exists z, int32 z /\ read_fort_int (field_no ex_ints 0 k) = Ok z) /\
  read_endf_numbers (ctrl_ropts 11) true ex_ints 8 0 = Ok (map NInt [2; 2; 10; 5; 20; 2; -7; 4], 2%nat) /\
  cpp_read_vec cpp_read_int_field 8 ex_ints = Val ([2; 2; 10; 5; 20; 2; -7; 4], skipn 2 ex_ints).
Proof.
  split; [|split; [|split; vm_compute; reflexivity]].
  - intros l H. cbn [In ex_ints] in H. repeat (destruct H as [<-|H]; [cbn; lia|]). destruct H.
  - intros k H. change (Z.to_nat 8) with 8%nat in H.
    do 8 (destruct k as [|k]; [split;
      [intros c J; vm_compute in J; repeat (destruct J as [<-|J]; [unfold number_char; cbn; tauto|]); destruct J
      |eexists; split; [|vm_compute; reflexivity]; split; vm_compute; congruence]|]). lia.
Qed.

(** Real numbers on the second line: C++ takes them as Python does. *)
Example C50_float_list_example : let lines :=
  [ $" 1.000000-5 2.000000+0 1.234567+7-2.000000+0         3.          42625 3102    1";
    $" 2.500000-1                                                       2625 3102    2" ] in
  exists vals, read_endf_numbers (ctrl_ropts 11) false lines 7 0 = Ok (vals, 2%nat) /\
  cpp_read_vec (cpp_read_float_field true) 7 lines = Val (map double_of vals, []) /\ length vals = 7%nat.
Proof.
  intros lines.
  match eval vm_compute in (read_endf_numbers (ctrl_ropts 11) false lines 7 0) with Ok (?v, _) => exists v end.
  split; [|split]; vm_compute; reflexivity.
Qed.

(** An integer in exponential notation: Python reads the number, C++ its first digits. *)
Theorem C50_int_list_refuted : exists line : str, (66 <= length line)%nat /\
  read_endf_numbers (ctrl_ropts 11) true [line] 2 0 = Ok ([NInt 1000; NInt 2], 1%nat) /\
  cpp_read_vec cpp_read_int_field 2 [line] = Val ([1; 2], []).
Proof.
  exists $"     1.0E+3          2                                            2625 3102    1".
  split; [cbn; lia|]. split; vm_compute; reflexivity.
Qed.
Print Assumptions C50_int_list_refuted.

(** No numbers at all: Python stays on the line, C++ takes one. *)
Theorem C50_empty_list_refuted : forall l lines,
  read_endf_numbers (ctrl_ropts 11) false (l :: lines) 0 0 = Ok ([], 0%nat) /\
  cpp_read_vec (cpp_read_float_field true) 0 (l :: lines) = Val ([], lines).
Proof. intros. split; reflexivity. Qed.
Print Assumptions C50_empty_list_refuted.

(** ** Real numbers that C++ writes *)

(** Without prefer_noexp, zero and numbers from 1e-99 up to 1e99: the field has eleven columns and is
    the text of a number [m * 10^(k-p)] with one digit in front of the point and [p] behind it, and
    the error is at most half a unit of the last digit. For an exponent with one digit [p] is 6, less
    one column for keep_E, one more for abuse_signpos; one less for an exponent with two digits. *)
Theorem C50_float_text : forall o f, cw_noexp o = false -> is_finite f = true ->
  (sfQ f == 0)%Q \/ (Qpower 10 (-99) <= Qabs (sfQ f) /\ Qabs (sfQ f) < Qpower 10 99)%Q ->
  exists t m k (p : nat), float2endfstr o f = Val (rjust 11 t) /\ (length t <= 11)%nat /\
    fortran_text t (sf_sign f) m (k - Z.of_nat p) /\
    (Qabs (Qabs (sfQ f) - decimalQ m (k - Z.of_nat p)) <= (1 # 2) * Qpower 10 (k - Z.of_nat p))%Q /\
    m < 10 ^ (Z.of_nat p + 1) /\ (sf_num f <> 0 -> 10 ^ Z.of_nat p <= m) /\ -99 <= k <= 99 /\
    (let d := ((if cw_keepE o then 5 else 6) + (if sf_nonneg f && cw_abuse o then 1 else 0))%nat in
     sf_num f <> 0 -> p = d /\ Z.abs k < 10 \/ p = (d - 1)%nat /\ 9 <= Z.abs k) /\
    (4 <= p)%nat.
Proof. exact float_text. Qed.
Print Assumptions C50_float_text.

Definition ex_o (keepE noexp : bool) : cwopts :=
  {| cw_abuse := false; cw_keepE := keepE; cw_noexp := noexp; cw_skip := false; cw_linenum := true |}.
Example C50_float_text_example :
  float2endfstr (ex_o false false) (round64 false 1 3) = Val $" 3.333333-1" /\
  float2endfstr (ex_o false false) (round64 true 2 3) = Val $"-6.666667-1" /\
  float2endfstr (ex_o false false) (round64 false (2 * 10 ^ 30) 3) = Val $" 6.66667+29" /\
  float2endfstr (ex_o true false) (round64 false (2 * 10 ^ 30) 3) = Val $" 6.6667e+29" /\
  float2endfstr (ex_o false false) (round64 false 9999996 (10 ^ 16)) = Val $"  1.00000-9".
Proof. repeat split; vm_compute; reflexivity. Qed.

(** prefer_noexp: a number with [i] digits in front of the point gets [p] decimals such that digits and
    point take the width that is asked for (a minus sign comes on top of it), and the error is at
    most half a unit of the last digit. *)
Theorem C50_decimal_text : forall f (i p : nat), is_finite f = true -> sf_num f <> 0 -> (1 <= i)%nat -> (1 <= p <= 16)%nat ->
  (i = 1%nat \/ (Qpower 10 (Z.of_nat i - 1) <= Qabs (sfQ f))%Q) ->
  (Qabs (sfQ f) <= Qpower 10 (Z.of_nat i) - Qpower 10 (- Z.of_nat p))%Q ->
  let t := float2endfstr_decimal_helper (i + 1 + p) f in
  exists m, fortran_text t (sf_sign f) m (0 - Z.of_nat p) /\ length t = ((if sf_sign f then 1 else 0) + (i + 1 + p))%nat /\
  (Qabs (Qabs (sfQ f) - decimalQ m (- Z.of_nat p)) <= (1 # 2) * Qpower 10 (- Z.of_nat p))%Q.
Proof. exact decimal_text. Qed.
Print Assumptions C50_decimal_text.
Example C50_decimal_text_example : let f := round64 true 12345678 1000 in
  is_finite f = true /\ (Qpower 10 (Z.of_nat 5 - 1) <= Qabs (sfQ f))%Q /\
  (Qabs (sfQ f) <= Qpower 10 (Z.of_nat 5) - Qpower 10 (- Z.of_nat 4))%Q /\
  float2endfstr_decimal_helper 10 f = $"-12345.6780".
Proof. intros f. repeat split; vm_compute; (reflexivity || discriminate). Qed.
