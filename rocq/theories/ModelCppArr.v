(** Model of the containers in which a compiled parser collects arrays: NestedVector
    (compiler/cpp_types/cpp_type_nested_vector/definition.py), Matrix2d
    (compiler/cpp_types/cpp_type_matrix2d/definition.py) and the index shifter for arrays of
    sections (compiler/cpp_templates/index_shifter.hpp).

    Simplifications: the indices are far from the limits of [int], so that the sums of
    NestedVector and of the index shifter do not overflow; there is enough memory. Objects are
    values: what is changed through a reference is put back into the container it came from. *)
From Coq Require Import Ascii String ZArith Bool Lia List.
From Verif Require Import PyBase ModelInterp ModelCpp.
Import ListNotations.
Open Scope Z_scope.

(** ** NestedVector, definition.py 14-142 *)

(** a number or text, or a vector with startIndex, lastIndex and its elements *)
Inductive nvec : Type := Cell (v : val) | Vec (start last : Z) (els : list nvec).

(** 22: the default constructor *)
Definition nv_empty : nvec := Vec 0 (-1) [].

(** [v[k]] and [v[k] = x] of std::vector *)
Fixpoint replace {A} (k : nat) (x : A) (l : list A) : list A :=
  match l, k with
  | [], _ => []
  | _ :: r, O => x :: r
  | y :: r, S k' => y :: replace k' x r
  end.
Definition in_size (k : Z) (n : nat) : bool := (0 <=? k) && (k <? Z.of_nat n).

(** 92-94 *)
Definition nv_contains (i : Z) (x : nvec) : bool :=
  match x with Vec s l _ => (s <=? i) && (i <=? l) | Cell _ => false end.

(** 55-60 *)
Definition nv_at (i : Z) (x : nvec) : cpp nvec :=
  match x with
  | Vec s l els =>
      if nv_contains i x then
        if in_size (i - s) (length els)
        then match nth_error els (Z.to_nat (i - s)) with Some e => Val e | None => Undefined end
        else Undefined
      else Throw
  | Cell _ => Undefined
  end.

(** 73-90 *)
Definition nv_set (i : Z) (e : nvec) (x : nvec) : cpp nvec :=
  match x with
  | Vec s0 l0 els =>
      let first := l0 =? -1 in
      let s := if first then i else s0 in
      let l := if first then i else l0 in
      if i =? s + Z.of_nat (length els) then Val (Vec s (if first then l else l + 1) (els ++ [e]))
      else if in_size (i - s) (length els) then Val (Vec s l (replace (Z.to_nat (i - s)) e els))
      else Throw
  | Cell _ => Undefined
  end.

(** 66-71, the vector after the call *)
Definition nv_prepare (i : Z) (x : nvec) : cpp nvec :=
  if nv_contains i x then Val x else nv_set i nv_empty x.

(** a change of the element at [i] through a reference *)
Definition nv_put (i : Z) (e : nvec) (x : nvec) : nvec :=
  match x with Vec s l els => Vec s l (replace (Z.to_nat (i - s)) e els) | Cell _ => x end.

(** cpp_type_nested_vector/assign.py 60-88: [prepare] for all indices but the last, [set] for
    the last *)
Fixpoint nv_assign (ix : list Z) (v : val) (x : nvec) : cpp nvec :=
  match ix with
  | [] => Undefined
  | i :: r =>
      match r with
      | [] => nv_set i (Cell v) x
      | _ => let* x1 := nv_prepare i x in
             let* sub := nv_at i x1 in
             let* sub' := nv_assign r v sub in
             Val (nv_put i sub' x1)
      end
  end.
Fixpoint nv_fill (ops : list (list Z * val)) (x : nvec) : cpp nvec :=
  match ops with
  | [] => Val x
  | (ix, v) :: r => let* x' := nv_assign ix v x in nv_fill r x'
  end.

(** assign.py 76-83, auxiliary.py 38-52: the calls of [prepare] for the indices that do not
    change in an enclosing loop are put in front of that loop. [pre] are these indices, the
    assignments are those of the loop. *)
Fixpoint nv_prepare_path (pre : list Z) (x : nvec) : cpp nvec :=
  match pre with
  | [] => Val x
  | i :: r => let* x1 := nv_prepare i x in
              let* sub := nv_at i x1 in
              let* sub' := nv_prepare_path r sub in
              Val (nv_put i sub' x1)
  end.
Fixpoint nv_rows (rows : list (list Z * list (list Z * val))) (x : nvec) : cpp nvec :=
  match rows with
  | [] => Val x
  | (pre, ops) :: r =>
      let* x1 := nv_prepare_path pre x in
      let* x2 := nv_fill (map (fun o => (pre ++ fst o, snd o)) ops) x1 in
      nv_rows r x2
  end.

(** cpp_type_nested_vector/query.py 23-40 *)
Definition nv_did_read (x : nvec) : bool :=
  match x with Vec _ l _ => negb (l =? -1) | Cell _ => false end.
Fixpoint nv_has (ix : list Z) (x : nvec) : cpp bool :=
  match ix with
  | [] => Val true
  | i :: r => if nv_contains i x
              then match r with [] => Val true | _ => let* e := nv_at i x in nv_has r e end
              else Val false
  end.
(** [var[i][j]...] *)
Fixpoint nv_get (ix : list Z) (x : nvec) : cpp val :=
  match ix with
  | [] => match x with Cell v => Val v | Vec _ _ _ => Undefined end
  | i :: r => let* e := nv_at i x in nv_get r e
  end.

(** 124-140; [cur[cnt++] = ...] with numbers that increase *)
Fixpoint number {A} (i : Z) (l : list A) : list (key * A) :=
  match l with [] => [] | a :: r => (KInt i, a) :: number (i + 1) r end.
Fixpoint nv_dict (x : nvec) : val :=
  match x with Cell v => v | Vec s _ els => VDict (number s (map nv_dict els)) end.
(** 108-122 *)
Fixpoint nv_list (x : nvec) : val :=
  match x with Cell v => v | Vec _ _ els => VList (map nv_list els) end.

(** ** Matrix2d, definition.py 14-123 *)

(** conversion to [size_t] and (as compilers do it) from [size_t] to [int] *)
Definition u64 (z : Z) : Z := z mod 2 ^ 64.
Definition i32 (z : Z) : Z := let r := z mod 2 ^ 32 in if r <? 2 ^ 31 then r else r - 2 ^ 32.

Record matrix : Type := {
  m_data : list val; m_rows : Z; m_cols : Z; m_row0 : Z; m_col0 : Z;
  m_accessed : bool; m_tri : bool; m_lower : bool }.

(** largest size of a std::vector of doubles *)
Definition max_size : Z := 2 ^ 60 - 1.

(** 30-44: a new matrix and [init]; [zero] is the value of [T()] *)
Definition mat_init (zero : val) (r0 r1 c0 c1 : Z) (tri lower : bool) : cpp matrix :=
  let rows := u64 (u64 r1 - u64 r0 + 1) in
  let cols := u64 (u64 c1 - u64 c0 + 1) in
  let n := u64 (rows * cols) in
  if max_size <? n then Throw else
  Val {| m_data := repeat zero (Z.to_nat n); m_rows := rows; m_cols := cols;
         m_row0 := u64 r0; m_col0 := u64 c0; m_accessed := false; m_tri := tri; m_lower := lower |}.

(** 54-57 *)
Definition mat_pos (m : matrix) (i j : Z) : Z :=
  u64 ((u64 i - m_row0 m) * m_cols m + (u64 j - m_col0 m)).
Definition mat_set (i j : Z) (v : val) (m : matrix) : cpp matrix :=
  let k := mat_pos m i j in
  if k <? Z.of_nat (length (m_data m))
  then Val {| m_data := replace (Z.to_nat k) v (m_data m); m_rows := m_rows m; m_cols := m_cols m;
              m_row0 := m_row0 m; m_col0 := m_col0 m; m_accessed := true; m_tri := m_tri m;
              m_lower := m_lower m |}
  else Throw.
Definition mat_get (i j : Z) (m : matrix) : cpp val :=
  let k := mat_pos m i j in
  if k <? Z.of_nat (length (m_data m))
  then match nth_error (m_data m) (Z.to_nat k) with Some v => Val v | None => Undefined end
  else Throw.
Fixpoint mat_fill (ops : list (Z * Z * val)) (m : matrix) : cpp matrix :=
  match ops with
  | [] => Val m
  | (i, j, v) :: r => let* m' := mat_set i j v m in mat_fill r m'
  end.

(** 59-89 *)
Definition mat_row_start (m : matrix) : Z := i32 (m_row0 m).
Definition mat_row_last (m : matrix) : Z := i32 (u64 (m_row0 m + m_rows m - 1)).
Definition mat_col_start (m : matrix) (i : Z) : Z :=
  if negb (m_tri m) || m_lower m then i32 (m_col0 m) else i32 (u64 (m_col0 m + (u64 i - m_row0 m))).
Definition mat_col_last (m : matrix) (i : Z) : Z :=
  if negb (m_tri m) || negb (m_lower m) then i32 (u64 (m_col0 m + m_cols m - 1))
  else i32 (u64 (m_col0 m + (u64 i - m_row0 m))).

Fixpoint cmapM {A B} (f : A -> cpp B) (l : list A) : cpp (list B) :=
  match l with
  | [] => Val []
  | a :: r => let* b := f a in let* bs := cmapM f r in Val (b :: bs)
  end.
(** 91-121 *)
Definition mat_row (m : matrix) (i : Z) : cpp (list (Z * val)) :=
  cmapM (fun j => let* v := mat_get i j m in Val (j, v)) (zrange (mat_col_start m i) (mat_col_last m i)).
Definition mat_dict (m : matrix) : cpp val :=
  let* rows := cmapM (fun i => let* r := mat_row m i in
                               Val (KInt i, VDict (map (fun jv => (KInt (fst jv), snd jv)) r)))
                     (zrange (mat_row_start m) (mat_row_last m)) in
  Val (VDict rows).
Definition mat_list (m : matrix) : cpp val :=
  let* rows := cmapM (fun i => let* r := mat_row m i in Val (VList (map snd r)))
                     (zrange (mat_row_start m) (mat_row_last m)) in
  Val (VList rows).

(** ** IndexShifter, index_shifter.hpp 14-114, arrays as dictionaries *)

Inductive shifter : Type := Shift (start : Z) (accessed : bool) (next : list shifter).
Definition new_shifter : shifter := Shift 0 false [].

(** 22-27: the levels after the call; behind the end of the vector nothing is defined *)
Definition get_next_level (k : Z) (next : list shifter) : cpp (list shifter * shifter) :=
  if k =? Z.of_nat (length next) then Val (next ++ [new_shifter], new_shifter)
  else if in_size k (length next)
       then match nth_error next (Z.to_nat k) with Some s => Val (next, s) | None => Undefined end
       else Undefined.

(** 49-79 with an empty dictionary as default value: the dictionary found, the container and
    the shifter after the call *)
Fixpoint shift_open (ix : list Z) (cur : val) (sh : shifter) : cpp (val * val * shifter) :=
  match ix with
  | [] => Undefined
  | i :: r =>
      match cur, sh with
      | VDict d, Shift s0 acc next =>
          let s := if acc then s0 else i in
          let old := match dget (KInt i) d with Some o => o | None => VDict [] end in
          match r with
          | [] => Val (old, VDict (dset (KInt i) old d), Shift s true next)
          | _ => let* (levels, lv) := get_next_level (i - s) next in
                 let* (found, o, lv') := shift_open r old lv in
                 Val (found, VDict (dset (KInt i) o d), Shift s true (replace (Z.to_nat (i - s)) lv' levels))
          end
      | _, _ => Throw
      end
  end.

(** A section is opened, its dictionary is filled by the statements of the section
    (endf2cpp_aux.py 164-188). *)
Fixpoint shift_sections (ops : list (list Z * (dict -> dict))) (cur : val) (sh : shifter) : cpp val :=
  match ops with
  | [] => Val cur
  | (ix, body) :: r =>
      let* (found, cur1, sh1) := shift_open ix cur sh in
      match found with
      | VDict d => shift_sections r (put_path (map KInt ix) (VDict (body d)) cur1) sh1
      | _ => Throw
      end
  end.
