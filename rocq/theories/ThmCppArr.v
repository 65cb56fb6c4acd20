(** C60: the arrays collected by a compiled parser are those of the Python parser. *)
From Coq Require Import Ascii String ZArith Bool Lia List.
From Verif Require Import PyBase PyFloat ModelFortran ModelNum ModelInterp ModelPath ModelCpp ModelCppArr SpecCppArr ProofCppArr.
Import ListNotations.
Open Scope Z_scope.

Definition num_of (z : Z) : val := VNum (NInt z).

(** ** Variables with indices *)

(** The container of a compiled parser takes the assignments, gives the dictionary of the
    Python parser, and answers like it whether a place has been read and what it holds. *)
Theorem C60_same_array : forall n ops,
  indices (S n) (map fst ops) -> in_order [] (map fst ops) ->
  exists x d, nv_fill ops nv_empty = Val x /\ py_fill ops (VDict []) = Ok (VDict d) /\
    nv_dict x = VDict d /\ (nv_did_read x = true <-> ops <> []) /\
    (forall q, length q = S n ->
       match array_get (VDict d) q with
       | Ok v => nv_has q x = Val true /\ nv_get q x = Val v
       | Err _ => nv_has q x = Val false /\ nv_get q x = Throw
       end).
Proof. exact arrays_same. Qed.
Print Assumptions C60_same_array.

(** The list of a compiled parser is the one into which the Python parser turns its array. *)
Theorem C60_same_list : forall n ops,
  indices (S n) (map fst ops) -> in_order [] (map fst ops) -> ops <> [] ->
  (forall o, In o ops -> match snd o with VDict _ => False | _ => True end) ->
  exists x d, nv_fill ops nv_empty = Val x /\ py_fill ops (VDict []) = Ok d /\ convert d = Ok (nv_list x).
Proof. exact arrays_lists. Qed.
Print Assumptions C60_same_list.

(** In any other order the assignments are refused with an exception; memory behind the end of
    a vector is never used. *)
Theorem C60_refused_order : forall n ops,
  indices (S n) (map fst ops) -> ~ in_order [] (map fst ops) -> nv_fill ops nv_empty = Throw.
Proof. exact arrays_rejected. Qed.
Print Assumptions C60_refused_order.

(** Loops none of which is empty, except perhaps the outermost, keep the order. *)
Theorem C60_loops : forall n l (ops : list (place * val)), regular (S n) l -> map fst ops = loop_places l ->
  indices (S n) (map fst ops) /\ in_order [] (map fst ops).
Proof. exact loops_same. Qed.
Print Assumptions C60_loops.

(** Preparing the vectors in front of a loop that is not empty changes nothing. *)
Theorem C60_prepared_rows : forall n rows,
  indices (S n) (map fst (flat_map row_ops rows)) ->
  (forall row, In row rows -> snd row <> [] /\ forall o, In o (snd row) -> fst o <> []) ->
  nv_rows rows nv_empty = nv_fill (flat_map row_ops rows) nv_empty.
Proof. exact rows_same. Qed.
Print Assumptions C60_prepared_rows.

(** for i = 1 to 3, for j = 0 to i *)
Definition ex_loops : loops := Loop 1 3 (fun i => Loop 0 i (fun _ => Body)).
Definition ex_ops : list (place * val) :=
  map (fun p => (p, num_of (fold_left (fun a i => 10 * a + i) p 0))) (loop_places ex_loops).
Example C60_loops_case : regular 2 ex_loops /\ map fst ex_ops = loop_places ex_loops /\
  nv_fill ex_ops nv_empty =
  Val (Vec 1 3 [Vec 0 1 [Cell (num_of 10); Cell (num_of 11)];
                Vec 0 2 [Cell (num_of 20); Cell (num_of 21); Cell (num_of 22)];
                Vec 0 3 [Cell (num_of 30); Cell (num_of 31); Cell (num_of 32); Cell (num_of 33)]]).
Proof.
  split; [|split; reflexivity]. cbn [regular ex_loops turning]. split; [lia|]. intros i Hi.
  repeat split; auto; lia.
Qed.
Example C60_same_array_case : indices 2 (map fst ex_ops) /\ in_order [] (map fst ex_ops) /\
  (forall o, In o ex_ops -> match snd o with VDict _ => False | _ => True end).
Proof.
  destruct (C60_loops 1 ex_loops ex_ops (proj1 C60_loops_case) (proj1 (proj2 C60_loops_case))) as [A B].
  split; [exact A|]. split; [exact B|]. intros o Ho. unfold ex_ops in Ho. apply in_map_iff in Ho.
  destruct Ho as (p & <- & _). exact Logic.I.
Qed.
Example C60_refused_order_case : ~ in_order [] [[1]; [3]].
Proof.
  cbn [in_order app]. intros (_ & H & _). destruct (H [] 3 [] eq_refl) as [A|(j & r & [->| ->] & B)].
  - apply (A 1 []). left. reflexivity.
  - destruct B as [B|[]]. discriminate.
  - destruct B as [B|[]]. discriminate.
Qed.

(** Not every order that the Python parser accepts is accepted: a gap, counting down. *)
Theorem C60_gap_refuted : exists n ops d,
  indices (S n) (map fst ops) /\ py_fill ops (VDict []) = Ok d /\ nv_fill ops nv_empty = Throw.
Proof.
  exists 0%nat, [([1], num_of 5); ([3], num_of 6)], (VDict [(KInt 1, num_of 5); (KInt 3, num_of 6)]).
  split; [|split; reflexivity]. intros p [<-|[<-|[]]]; split; auto; repeat constructor; lia.
Qed.
Print Assumptions C60_gap_refuted.
Theorem C60_downward_refuted : exists n ops d,
  indices (S n) (map fst ops) /\ py_fill ops (VDict []) = Ok d /\ nv_fill ops nv_empty = Throw.
Proof.
  exists 0%nat, [([2], num_of 5); ([1], num_of 6)], (VDict [(KInt 2, num_of 5); (KInt 1, num_of 6)]).
  split; [|split; reflexivity]. intros p [<-|[<-|[]]]; split; auto; repeat constructor; lia.
Qed.
Print Assumptions C60_downward_refuted.

(** With negative indices a value is lost: -1 is the mark of an empty vector. *)
Theorem C60_minus_one_refuted : exists ops x d,
  in_order [] (map fst ops) /\ nv_fill ops nv_empty = Val x /\ py_fill ops (VDict []) = Ok d /\
  d = VDict [(KInt (-1), num_of 5); (KInt 0, num_of 6)] /\ nv_dict x = VDict [(KInt 0, num_of 6)].
Proof.
  exists [([-1], num_of 5); ([0], num_of 6)], (Vec 0 0 [Cell (num_of 6)]),
    (VDict [(KInt (-1), num_of 5); (KInt 0, num_of 6)]).
  split; [|repeat split; reflexivity]. cbn [map fst in_order app]. split; [|split; [|exact Logic.I]].
  - intros pre i post _. left. intros j r [].
  - intros [|a [|? ?]] i post E; cbn [app] in E; try discriminate.
    injection E as <- _. right. exists (-1), []. split; [right; reflexivity|left; reflexivity].
Qed.
Print Assumptions C60_minus_one_refuted.

(** A row without elements: prepared in front of its loop it appears as an empty dictionary,
    which the Python parser does not have. *)
Theorem C60_empty_row_refuted : exists rows x d,
  nv_rows rows nv_empty = Val x /\ py_fill (flat_map row_ops rows) (VDict []) = Ok d /\
  nv_dict x = VDict [(KInt 1, VDict [(KInt 1, num_of 5)]); (KInt 2, VDict [])] /\
  d = VDict [(KInt 1, VDict [(KInt 1, num_of 5)])].
Proof.
  exists [([1], [([1], num_of 5)]); ([2], [])], (Vec 1 2 [Vec 1 1 [Cell (num_of 5)]; nv_empty]),
    (VDict [(KInt 1, VDict [(KInt 1, num_of 5)])]).
  repeat split; reflexivity.
Qed.
Print Assumptions C60_empty_row_refuted.

(** ** Matrices *)

(** A matrix all of whose cells are assigned, in an order as above, gives the dictionary and
    the list of the Python parser. *)
Theorem C60_same_matrix : forall r0 r1 c0 c1 sh, matrix_size sh r0 r1 c0 c1 -> forall zero ops,
  (forall i j, In [i; j] (map fst (matrix_places ops)) <-> cell sh r0 r1 c0 c1 i j) ->
  in_order [] (map fst (matrix_places ops)) ->
  exists m m' d l,
    mat_init zero r0 r1 c0 c1 (is_triangle sh) (is_lower sh) = Val m /\
    mat_fill ops m = Val m' /\ m_accessed m' = true /\
    mat_dict m' = Val d /\ mat_list m' = Val l /\
    py_fill (matrix_places ops) (VDict []) = Ok d /\
    ((forall o, In o ops -> match snd o with VDict _ => False | _ => True end) -> convert d = Ok l).
Proof. exact matrix_same. Qed.
Print Assumptions C60_same_matrix.

(** column by column is such an order, too *)
Theorem C60_columns : forall r0 r1 c0 c1,
  in_order [] (flat_map (fun j => map (fun i => [i; j]) (zrange r0 r1)) (zrange c0 c1)).
Proof. exact columns_in_order. Qed.
Print Assumptions C60_columns.

Definition ex_upper : list (Z * Z * val) := [(1, 1, num_of 11); (1, 2, num_of 12); (2, 2, num_of 22)].
Example C60_same_matrix_case : matrix_size Upper 1 2 1 2 /\
  (forall i j, In [i; j] (map fst (matrix_places ex_upper)) <-> cell Upper 1 2 1 2 i j) /\
  in_order [] (map fst (matrix_places ex_upper)).
Proof.
  split; [unfold matrix_size; lia|]. split.
  - intros i j. unfold ex_upper, matrix_places, cell. cbn [map fst snd In]. split.
    + intros [H|[H|[H|[]]]]; injection H as <- <-; lia.
    + intros H. destruct (Z.eq_dec i 1) as [->|].
      * destruct (Z.eq_dec j 1) as [->|]; [auto|]. right. left. f_equal. f_equal. lia.
      * right. right. left. assert (i = 2) by lia. assert (j = 2) by lia. subst. reflexivity.
  - change (map fst (matrix_places ex_upper)) with (loop_places (Loop 1 2 (fun i => Loop i 2 (fun _ => Body)))).
    apply (regular_in_order 2). cbn [regular turning]. split; [lia|]. intros i Hi. repeat split; auto; lia.
Qed.

(** A cell that is not assigned, for a condition inside of the loops, comes out as a zero. *)
Theorem C60_partial_matrix_refuted : exists m m' d d',
  mat_init (num_of 0) 1 1 1 2 false false = Val m /\ mat_fill [(1, 1, num_of 5)] m = Val m' /\
  mat_dict m' = Val d /\ py_fill (matrix_places [(1, 1, num_of 5)]) (VDict []) = Ok d' /\
  d = VDict [(KInt 1, VDict [(KInt 1, num_of 5); (KInt 2, num_of 0)])] /\
  d' = VDict [(KInt 1, VDict [(KInt 1, num_of 5)])].
Proof.
  do 4 eexists. split; [reflexivity|]. split; [vm_compute; reflexivity|]. split; [vm_compute; reflexivity|].
  split; [reflexivity|]. split; reflexivity.
Qed.
Print Assumptions C60_partial_matrix_refuted.

(** Loops that are not entered: the Python parser has no array, making a matrix fails. *)
Theorem C60_empty_matrix_refuted : exists r1 c1,
  mat_init (num_of 0) 1 r1 1 c1 false false = Throw /\
  loop_places (Loop 1 r1 (fun _ => Loop 1 c1 (fun _ => Body))) = [].
Proof. exists (-1), 5. split; vm_compute; reflexivity. Qed.
Print Assumptions C60_empty_matrix_refuted.

(** Only the diagonal that starts at the first cell is right: for i = 1 to 3, for j = 1 to i - 1 *)
Theorem C60_strict_triangle_refuted : exists ops m m' d,
  map fst (matrix_places ops) = loop_places (Loop 1 3 (fun i => Loop 1 (i - 1) (fun _ => Body))) /\
  mat_init (num_of 0) 1 3 1 2 true true = Val m /\ mat_fill ops m = Val m' /\ mat_dict m' = Throw /\
  py_fill (matrix_places ops) (VDict []) = Ok d.
Proof.
  exists [(2, 1, num_of 21); (3, 1, num_of 31); (3, 2, num_of 32)].
  do 3 eexists. split; [reflexivity|]. split; [reflexivity|]. split; [vm_compute; reflexivity|].
  split; [vm_compute; reflexivity|]. reflexivity.
Qed.
Print Assumptions C60_strict_triangle_refuted.

(** ** Arrays of sections *)

(** Sections opened in order are the sections of the Python parser, whatever is put into them. *)
Theorem C60_same_sections : forall n ops,
  (forall p, In p (map fst ops) -> length p = S n) -> in_order [] (map fst ops) ->
  exists a, shift_sections ops (VDict []) new_shifter = Val a /\ py_sections ops (VDict []) = Ok a.
Proof. exact sections_same. Qed.
Print Assumptions C60_same_sections.
(** with one index in any order *)
Theorem C60_same_sections_one : forall ops,
  (forall p, In p (map fst ops) -> length p = 1%nat) ->
  exists a, shift_sections ops (VDict []) new_shifter = Val a /\ py_sections ops (VDict []) = Ok a.
Proof. exact sections_one_same. Qed.
Print Assumptions C60_same_sections_one.

Definition ex_body (z : Z) (d : dict) : dict := dset (KStr $"A") (num_of z) d.
Definition ex_sections : list (place * (dict -> dict)) :=
  map (fun p => (p, ex_body (fold_left (fun a i => 10 * a + i) p 0))) (loop_places ex_loops).
Example C60_same_sections_case :
  (forall p, In p (map fst ex_sections) -> length p = 2%nat) /\ in_order [] (map fst ex_sections).
Proof.
  assert (E : map fst ex_sections = map fst ex_ops) by (unfold ex_sections, ex_ops; rewrite !map_map; reflexivity).
  rewrite E. destruct C60_same_array_case as (A & B & _). split; [|exact B].
  intros p Hp. exact (proj1 (A p Hp)).
Qed.
Example C60_same_sections_one_case : (forall p, In p (map fst [([4], ex_body 1); ([2], ex_body 2)]) -> length p = 1%nat) /\
  shift_sections [([4], ex_body 1); ([2], ex_body 2)] (VDict []) new_shifter =
  Val (VDict [(KInt 4, VDict [(KStr $"A", num_of 1)]); (KInt 2, VDict [(KStr $"A", num_of 2)])]).
Proof. split; [|reflexivity]. intros p [<-|[<-|[]]]; reflexivity. Qed.

(** With two indices a gap is read behind the end of a vector. *)
Theorem C60_sections_gap_refuted : exists ops a,
  (forall p, In p (map fst ops) -> length p = 2%nat) /\
  py_sections ops (VDict []) = Ok a /\ shift_sections ops (VDict []) new_shifter = Undefined.
Proof.
  exists [([1; 1], ex_body 1); ([3; 1], ex_body 2)]. eexists. split.
  - intros p [<-|[<-|[]]]; reflexivity.
  - split; vm_compute; reflexivity.
Qed.
Print Assumptions C60_sections_gap_refuted.
