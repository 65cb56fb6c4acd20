(** C16-C22: number arrays and records. *)
From Coq Require Import Ascii String ZArith QArith Bool Lia List.
From Coq Require Import Floats.SpecFloat.
From Verif Require Import PyBase PyFloat ModelFortran ModelRecords SpecFields SpecFloat SpecLibm
  ProofRecords.
Import ListNotations.
Open Scope Z_scope.

(** ** C16 *)

(** [vals] and [ws]: the numbers written and what each of them reads as on its own. *)
Theorem C16_float_array : forall wo ro vals ws,
  same_width wo ro -> Forall2 (float_rt wo ro) vals ws -> vals <> [] ->
  exists ls, write_endf_floats wo vals = Ok ls /\ length ls = lines6 (length vals) /\
    full_lines (w_width wo) ls /\
    forall L ofs, at_lines ls L ofs ->
      read_endf_numbers ro false L (Z.of_nat (length vals)) ofs = Ok (ws, (ofs + length ls)%nat).
Proof. exact floats_roundtrip. Qed.
Print Assumptions C16_float_array.

Theorem C16_int_array : forall wo ro vals,
  same_width wo ro -> vals <> [] -> Forall (small_int (w_width wo)) vals ->
  exists ls, write_endf_ints wo vals = Ok ls /\ length ls = lines6 (length vals) /\
    full_lines (w_width wo) ls /\
    forall L ofs, at_lines ls L ofs ->
      read_endf_numbers ro true L (Z.of_nat (length vals)) ofs = Ok (map NInt vals, (ofs + length ls)%nat).
Proof. exact ints_roundtrip. Qed.
Print Assumptions C16_int_array.

(** a number that is its own image *)
Definition num_a : num := NFlt (round64 false 1234 1000).
Definition num_b : num := NFlt (round64 true 25 (10 ^ 12)).
Definition num_0 : num := NFlt (S754_zero false).
Example C16_example :
  same_width default_wo default_ro /\
  Forall2 (float_rt default_wo default_ro) [num_a; num_b; num_0; num_a; num_a; num_b; num_b]
                                           [num_a; num_b; num_0; num_a; num_a; num_b; num_b] /\
  Forall (small_int 11) [1; -2; 99999999999] /\ lines6 7 = 2%nat.
Proof.
  split; [split; [reflexivity|cbn; lia]|]. split; [|split; [|reflexivity]].
  - assert (A : float_rt default_wo default_ro num_a num_a)
      by (apply (float_rt_intro _ _ _ _ $" 1.234000+0"); vm_compute; reflexivity).
    assert (B : float_rt default_wo default_ro num_b num_b)
      by (apply (float_rt_intro _ _ _ _ $"-2.50000-11"); vm_compute; reflexivity).
    assert (Z : float_rt default_wo default_ro num_0 num_0)
      by (apply (float_rt_intro _ _ _ _ $" 0.000000+0"); vm_compute; reflexivity).
    auto 10.
  - repeat constructor; vm_compute; congruence.
Qed.

(** ** C17 *)

(** CONT and HEAD (the same functions, endf_utils.py 268-269). [r'] is the record with
    each number as it reads after having been printed. *)
Theorem C17_cont : forall ro wo r r' c,
  same_width wo ro -> cont_rt wo ro r r' -> ctrl_fits c ->
  exists l, write_cont wo r c = Ok [l] /\ length l = (6 * w_width wo + 9)%nat /\
    forall L ofs, at_lines [l] L ofs -> read_cont ro L ofs = Ok (r', c, S ofs).
Proof. exact cont_roundtrip. Qed.
Print Assumptions C17_cont.

Theorem C17_dir : forall ro wo r c, same_width wo ro ->
  in_field (w_width wo) (D_L1 r) -> in_field (w_width wo) (D_L2 r) ->
  in_field (w_width wo) (D_N1 r) -> in_field (w_width wo) (D_N2 r) -> ctrl_fits c ->
  exists l, write_dir wo r c = [l] /\ length l = (6 * w_width wo + 9)%nat /\
    forall L ofs, at_lines [l] L ofs -> read_dir ro L ofs = Ok (r, c, S ofs).
Proof. exact dir_roundtrip. Qed.
Print Assumptions C17_dir.

(** Nothing but integers (with strict_datatypes: nothing but ints) is written into an
    integer slot. *)
Theorem C17_integer_slots : forall wo r c ls, write_cont wo r c = Ok ls ->
  exists l1 l2 n1 n2, int_valued wo (L1 r) l1 /\ int_valued wo (L2 r) l2 /\
    int_valued wo (N1 r) n1 /\ int_valued wo (N2 r) n2.
Proof. exact write_cont_slots. Qed.
Print Assumptions C17_integer_slots.

Definition cont_a : contrec :=
  {| C1 := num_a; C2 := num_b; L1 := NInt 1; L2 := NFlt (round64 true 20 1); N1 := NInt 3; N2 := NInt 99999999999 |}.
Definition cont_a' : contrec :=
  {| C1 := num_a; C2 := num_b; L1 := NInt 1; L2 := NInt (-20); N1 := NInt 3; N2 := NInt 99999999999 |}.
Example C17_example :
  cont_rt default_wo default_ro cont_a cont_a' /\
  write_cont default_wo cont_a {| MAT := 2625; MF := 3; MT := 102 |} =
    Ok [$" 1.234000+0-2.50000-11          1        -20          3999999999992625 3102"].
Proof.
  split; [|vm_compute; reflexivity].
  assert (A : float_rt default_wo default_ro num_a num_a)
      by (apply (float_rt_intro _ _ _ _ $" 1.234000+0"); vm_compute; reflexivity).
  assert (B : float_rt default_wo default_ro num_b num_b)
      by (apply (float_rt_intro _ _ _ _ $"-2.50000-11"); vm_compute; reflexivity).
  split; [exact A|]. split; [exact B|].
  split; [exists 1|split; [exists (-20)|split; [exists 3|exists 99999999999]]];
    (split; [|split; [vm_compute; auto|reflexivity]]).
  - now left.
  - right. repeat split.
  - now left.
  - now left.
Qed.

(** ** C18 *)

(** [z0]: how the padding zeros read back; they are not part of the result. *)
Theorem C18_list : forall wo ro r r' c vals ws z0,
  same_width wo ro -> cont_rt wo ro r r' -> ctrl_fits c ->
  N1 r = NInt (Z.of_nat (length vals)) -> Forall2 (float_rt wo ro) vals ws ->
  float_rt wo ro (NFlt (S754_zero false)) z0 ->
  exists ls, write_list wo r c vals = Ok ls /\ length ls = S (lines6 (length vals)) /\
    Forall (fun l => length l = (6 * w_width wo + 9)%nat) ls /\
    forall L ofs, at_lines ls L ofs -> read_list ro L ofs = Ok (r', c, ws, (ofs + length ls)%nat).
Proof. exact list_roundtrip. Qed.
Print Assumptions C18_list.

Theorem C18_list_length_checked : forall wo r c vals, num_finite (N1 r) = true ->
  num_num (N1 r) <> Z.of_nat (length vals) * num_den (N1 r) ->
  write_list wo r c vals = Err UnconsumedListElementsError \/
  write_list wo r c vals = Err MoreListElementsExpectedError.
Proof. exact write_list_count_iff. Qed.
Print Assumptions C18_list_length_checked.

Example C18_example :
  N1 cont_a = NInt (Z.of_nat (length [num_a; num_b; num_0])) /\
  float_rt default_wo default_ro (NFlt (S754_zero false)) num_0 /\
  write_list default_wo cont_a {| MAT := 2625; MF := 3; MT := 102 |} [num_a; num_b; num_b] =
    Ok [$" 1.234000+0-2.50000-11          1        -20          3999999999992625 3102";
        $" 1.234000+0-2.50000-11-2.50000-11 0.000000+0 0.000000+0 0.000000+02625 3102"].
Proof.
  split; [reflexivity|]. split; [|vm_compute; reflexivity].
  apply (float_rt_intro _ _ _ _ $" 0.000000+0"); vm_compute; reflexivity.
Qed.

(** ** C19 *)

Theorem C19_tab1 : forall wo ro r r' c nbt int xs ys xs' ys',
  same_width wo ro -> cont_rt wo ro r r' -> ctrl_fits c ->
  length nbt = length int -> nbt <> [] -> length xs = length ys -> xs <> [] ->
  Forall (small_int (w_width wo)) nbt -> Forall (small_int (w_width wo)) int ->
  in_field (w_width wo) (Z.of_nat (length nbt)) -> in_field (w_width wo) (Z.of_nat (length xs)) ->
  Forall2 (float_rt wo ro) xs xs' -> Forall2 (float_rt wo ro) ys ys' ->
  exists ls, write_tab1 wo r c nbt int xs ys = Ok ls /\
    Forall (fun l => length l = (6 * w_width wo + 9)%nat) ls /\
    length ls = S (lines6 (2 * length nbt) + lines6 (2 * length xs)) /\
    forall L ofs, at_lines ls L ofs ->
      read_tab1 ro L ofs =
        Ok (set_N2 (set_N1 r' (Z.of_nat (length nbt))) (Z.of_nat (length xs)), c,
            (map NInt nbt, map NInt int, xs', ys'), (ofs + length ls)%nat).
Proof. exact tab1_roundtrip. Qed.
Print Assumptions C19_tab1.

Theorem C19_tab2 : forall wo ro r r' c nbt int,
  same_width wo ro -> cont_rt wo ro r r' -> ctrl_fits c ->
  length nbt = length int -> nbt <> [] ->
  Forall (small_int (w_width wo)) nbt -> Forall (small_int (w_width wo)) int ->
  in_field (w_width wo) (Z.of_nat (length nbt)) ->
  exists ls, write_tab2 wo r c nbt int = Ok ls /\
    Forall (fun l => length l = (6 * w_width wo + 9)%nat) ls /\
    length ls = S (lines6 (2 * length nbt)) /\
    forall L ofs, at_lines ls L ofs ->
      read_tab2 ro L ofs = Ok (set_N1 r' (Z.of_nat (length nbt)), c, (map NInt nbt, map NInt int),
                               (ofs + length ls)%nat).
Proof. exact tab2_roundtrip. Qed.
Print Assumptions C19_tab2.

Example C19_example :
  write_tab1 default_wo cont_a {| MAT := 2625; MF := 3; MT := 102 |} [2; 4] [2; 5]
    [num_0; num_a; num_a; num_a] [num_b; num_a; num_b; num_b] =
  Ok [$" 1.234000+0-2.50000-11          1        -20          2          42625 3102";
      $"          2          2          4          5                      2625 3102";
      $" 0.000000+0-2.50000-11 1.234000+0 1.234000+0 1.234000+0-2.50000-112625 3102";
      $" 1.234000+0-2.50000-11                                            2625 3102"] /\
  Forall (small_int 11) [2; 4] /\ in_field 11 4.
Proof. split; [vm_compute; reflexivity|]. split; [repeat constructor|split]; vm_compute; congruence. Qed.

(** ** C20 *)

(** Exactly which tables can be written: those with an interpolation range and a point. *)
Theorem C20_tab1_writable : forall wo r c nbt int xs ys,
  length nbt = length int -> length xs = length ys ->
  (exists ls, write_tab1 wo r c nbt int xs ys = Ok ls) <->
  nbt <> [] /\ xs <> [] /\
  (exists l, write_cont wo (set_N2 (set_N1 r (Z.of_nat (length nbt))) (Z.of_nat (length xs))) c = Ok l) /\
  Forall (fun v => exists s, float2fortstr wo v = Ok s) (xs ++ ys).
Proof. exact write_tab1_ok_iff. Qed.
Print Assumptions C20_tab1_writable.

Theorem C20_tab2_writable : forall wo r c nbt int, length nbt = length int ->
  (exists ls, write_tab2 wo r c nbt int = Ok ls) <->
  nbt <> [] /\ (exists l, write_cont wo (set_N1 r (Z.of_nat (length nbt))) c = Ok l).
Proof. exact write_tab2_ok_iff. Qed.
Print Assumptions C20_tab2_writable.

(** C20 does not hold of the code: tables with NR=0 are read but cannot be written. *)
Theorem C20_readable_is_writable_refuted :
  (exists r c, read_tab2 default_ro [empty_tab2_line] 0 = Ok (r, c, ([], []), 1%nat) /\
     write_tab2 default_wo r c [] [] = Err IndexError) /\
  (exists r c, read_tab1 default_ro [empty_tab_line] 0 = Ok (r, c, ([], [], [], []), 1%nat) /\
     write_tab1 default_wo r c [] [] [] [] = Err IndexError).
Proof. exact empty_tables. Qed.
Print Assumptions C20_readable_is_writable_refuted.

(** ** C21 *)

Theorem C21_intg : forall wo ro nd r c, same_width wo ro -> (11 <= w_width wo)%nat ->
  nd = 2 \/ nd = 4 \/ nd = 5 \/ nd = 6 ->
  in_field 5 (G_II r) -> in_field 5 (G_JJ r) -> length (G_KIJ r) = intg_values nd ->
  Forall (in_field (Z.to_nat nd + 1)) (G_KIJ r) -> ctrl_fits c ->
  exists l, write_intg wo nd r c = [l] /\ length l = (6 * w_width wo + 9)%nat /\
    forall L ofs, at_lines [l] L ofs -> read_intg ro nd L ofs = Ok (r, c, S ofs).
Proof. exact intg_roundtrip_spec. Qed.
Print Assumptions C21_intg.

Example C21_example : exists r,
  in_field 5 (G_II r) /\ in_field 5 (G_JJ r) /\ length (G_KIJ r) = intg_values 4 /\
  Forall (in_field (Z.to_nat 4 + 1)) (G_KIJ r) /\
  write_intg default_wo 4 r {| MAT := 2625; MF := 33; MT := 2 |} =
    [$"   17   16 -1000  999    0    1    2    3    4    5    6    799999262533  2"].
Proof.
  exists {| G_II := 17; G_JJ := 16; G_KIJ := [-1000; 999; 0; 1; 2; 3; 4; 5; 6; 7; 99999] |}.
  split; [vm_compute; auto|]. split; [vm_compute; auto|]. split; [reflexivity|].
  split; [repeat constructor; vm_compute; auto|vm_compute; reflexivity].
Qed.

(** C21 does not hold of the code for NDIGIT=3: 14 values are read (the last one reaches
    into the MAT column), and writing them makes the line one column too long. *)
Theorem C21_ndigit3_reads_14 : forall ro L ofs r c ofs',
  read_intg ro 3 L ofs = Ok (r, c, ofs') -> length (G_KIJ r) = 14%nat.
Proof. exact intg3_read. Qed.
Print Assumptions C21_ndigit3_reads_14.

Theorem C21_ndigit3_line_too_long : forall wo r c, w_width wo = 11%nat ->
  in_field 5 (G_II r) -> in_field 5 (G_JJ r) -> length (G_KIJ r) = 14%nat ->
  Forall (in_field 4) (G_KIJ r) -> ctrl_fits c ->
  exists l, write_intg wo 3 r c = [l] /\ length l = 76%nat.
Proof. exact intg3_write. Qed.
Print Assumptions C21_ndigit3_line_too_long.

Theorem C21_ndigit3_refuted :
  Forall (in_field 4) (G_KIJ intg3_rec) /\
  read_intg default_ro 3 (write_intg default_wo 3 intg3_rec intg3_ctrl) 0 =
    Ok (intg3_rec, {| MAT := 262; MF := 53; MT := 3 |}, 1%nat).
Proof. exact intg3_no_roundtrip. Qed.
Print Assumptions C21_ndigit3_refuted.

(** ** C22 (the 66 columns; the fields of a TEXT recipe are in ThmMapping.v) *)

Theorem C22_text_columns : forall wo ro hl c,
  same_width wo ro -> (length hl <= 6 * w_width wo)%nat -> ctrl_fits c ->
  forall L ofs, at_lines (write_text wo hl c) L ofs ->
  read_text ro L ofs = Ok (ljust (6 * w_width wo) hl, c, S ofs).
Proof. exact text_roundtrip. Qed.
Print Assumptions C22_text_columns.

Example C22_example :
  (length $"  26-FE- 56 IAEA     EVAL-DEC22" <= 6 * w_width default_wo)%nat /\
  write_text default_wo $"  26-FE- 56 IAEA     EVAL-DEC22" {| MAT := 2631; MF := 1; MT := 451 |} =
    [$"  26-FE- 56 IAEA     EVAL-DEC22                                   2631 1451"].
Proof. split; [cbn; lia|reflexivity]. Qed.
