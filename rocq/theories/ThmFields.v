(** C09, C10, C11: control columns, integer fields, real number fields. *)
From Coq Require Import Ascii String ZArith QArith Bool Lia List.
From Coq Require Import Floats.SpecFloat.
From Verif Require Import PyBase PyFloat ModelFortran ModelRecords SpecFields SpecFloat
  ProofFields ProofFloatText ProofAccept.
Import ListNotations.
Open Scope Z_scope.

(** ** C09 *)

(** Whatever stands before and behind the control columns, the control numbers are read
    back iff they fit; there is no error for others. *)
Theorem C09_control_columns : forall ro pre suf c, length pre = (6 * r_width ro)%nat ->
  (read_ctrl ro (pre ++ write_ctrl c ++ suf) = Ok c <-> ctrl_fits c).
Proof. exact read_ctrl_write_iff. Qed.
Print Assumptions C09_control_columns.

(** Numbers that do not fit make the control part wider than nine columns. *)
Theorem C09_control_width : forall c, length (write_ctrl c) = 9%nat <-> ctrl_fits c.
Proof. exact length_write_ctrl_iff. Qed.
Print Assumptions C09_control_width.

Example C09_example :
  ctrl_fits {| MAT := 2625; MF := 3; MT := 102 |} /\
  write_ctrl {| MAT := 2625; MF := 3; MT := 102 |} = $"2625 3102" /\
  write_ctrl {| MAT := 12625; MF := 3; MT := 102 |} = $"12625 3102".
Proof. repeat split; try (unfold ctrl_fits; cbn; lia); reflexivity. Qed.

(** ** C10 *)

Theorem C10_integer_field : forall w pre suf n, (1 <= w)%nat ->
  (read_fort_int (slice (length pre) (length pre + w) (pre ++ int_field w n ++ suf)) = Ok n
   <-> in_field w n).
Proof. exact read_int_field_iff. Qed.
Print Assumptions C10_integer_field.

(** exactly which fields are accepted, and as which number *)
Theorem C10_accepted_fields : forall s v,
  read_fort_int s = Ok v <-> (blank s /\ v = 0) \/ (~ blank s /\ int_text s v).
Proof. exact read_fort_int_spec. Qed.
Print Assumptions C10_accepted_fields.

Theorem C10_rejection : forall s e, read_fort_int s = Err e -> e = InvalidIntegerError.
Proof. exact read_fort_int_err. Qed.
Print Assumptions C10_rejection.

Example C10_example :
  in_field 11 (-1234567890) /\ int_field 11 (-42) = $"        -42" /\
  ~ in_field 11 100000000000 /\
  read_fort_int $"  1 2" = Err InvalidIntegerError.
Proof. repeat split; try (unfold in_field; cbn; lia); reflexivity. Qed.

(** ** C11 *)

(** A field with the text of [(-1)^neg * m * 10^e] is read as a nearest double (with
    the sign of the text), or as an infinity if the number is too large. *)
Theorem C11_float_field : forall ro s t neg m e,
  (length s <= r_width ro)%nat -> fortran_text t neg m e -> field_text (r_spaces ro) t s ->
  exists f, read_fort_float ro s = Ok (if r_preserve ro then NEndf f s else NFlt f) /\
   ((decimalQ m e < overflow_threshold)%Q ->
     nearest_double f ((if neg then -1 else 1) * decimalQ m e)%Q /\ sf_sign f = neg) /\
   ((overflow_threshold <= decimalQ m e)%Q -> f = S754_infinity neg).
Proof. exact read_field_text. Qed.
Print Assumptions C11_float_field.

Example C11_example : exists t,
  fortran_text t true 1234 3 /\ field_text true t $" -1.234 + 6 " /\ t = $"-1.234+6".
Proof.
  exists $"-1.234+6". split; [|split; [repeat constructor|reflexivity]].
  exists $"-", $"1", $".", $"234", true, $"+6", 6.
  split; [reflexivity|]. split; [auto|].
  split; [intros c H; repeat (destruct H as [<-|H]; [reflexivity|]); destruct H|].
  split; [intros c H; repeat (destruct H as [<-|H]; [reflexivity|]); destruct H|].
  split; [discriminate|]. split; [right; split; [reflexivity|discriminate]|].
  split; [|split; reflexivity].
  apply (exp_bare $"+" $"6"); auto; [discriminate|].
  intros c H; repeat (destruct H as [<-|H]; [reflexivity|]); destruct H.
Qed.

(** Of the fields made of digits, signs, points, "e", "E" and spaces exactly the blank ones and
    those with the text of a number are accepted. *)
Theorem C11_accepted_fields : forall ro s, (length s <= r_width ro)%nat -> number_field s ->
  ((exists v, read_fort_float ro s = Ok v) <->
   blank s \/ exists t neg m e, fortran_text t neg m e /\ field_text (r_spaces ro) t s).
Proof. exact accepted_fields. Qed.
Print Assumptions C11_accepted_fields.

Example C11_accepted_example : number_field $" -1.234 + 6 ".
Proof. intros c H. repeat (destruct H as [<-|H]; [unfold number_char; cbn; tauto|]). destruct H. Qed.

Theorem C11_blank_field : forall ro s, (length s <= r_width ro)%nat -> blank s ->
  read_fort_float ro s = Ok (NFlt (S754_zero false)).
Proof. exact read_blank_field. Qed.
Print Assumptions C11_blank_field.

(** With accept_spaces two fields that differ only in spaces are read alike (also if
    they are rejected). *)
Theorem C11_spaces_ignored : forall ro s s',
  (length s <= r_width ro)%nat -> (length s' <= r_width ro)%nat ->
  r_spaces ro = true -> r_preserve ro = false ->
  remove_chr " "%char s = remove_chr " "%char s' -> read_fort_float ro s = read_fort_float ro s'.
Proof. exact read_spaces_ignored. Qed.
Print Assumptions C11_spaces_ignored.

Theorem C11_inner_spaces_rejected : forall ro s,
  (length s <= r_width ro)%nat -> r_spaces ro = false -> inner_blank s ->
  read_fort_float ro s = Err InvalidFloatError.
Proof. exact read_inner_blank. Qed.
Print Assumptions C11_inner_spaces_rejected.

Example C11_inner_example : inner_blank $" 1.0+ 5".
Proof. exists $" 1.", "0"%char, $"+ ", "5"%char, []. repeat split. exists " "%char. cbn; auto. Qed.

(** An exponent without letter directly behind the decimal point is rejected, although
    Fortran reads 1.+5 as 100000. *)
Theorem C11_bare_exponent_after_point_refuted : exists s,
  s = $"1.+5" /\
  forall sp pr w, (4 <= w)%nat -> fortstr2float sp pr (Some w) s = Err InvalidFloatError.
Proof. exact bare_exponent_after_point. Qed.
Print Assumptions C11_bare_exponent_after_point_refuted.
