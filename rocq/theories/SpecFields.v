(** Specification vocabulary for fields and records, independent of the model's code. *)
From Coq Require Import Ascii String ZArith Bool Lia List.
From Coq Require Import Floats.SpecFloat.
From Verif Require Import PyBase PyFloat ModelFortran ModelRecords.
Import ListNotations.
Open Scope Z_scope.

(** integers whose decimal text has at most [w] characters *)
Definition in_field (w : nat) (n : Z) : Prop :=
  - 10 ^ (Z.of_nat w - 1) < n < 10 ^ Z.of_nat w.

(** MAT, MF, MT fit into columns of width 4, 2 and 3 *)
Definition ctrl_fits (c : ctrl) : Prop :=
  -1000 < MAT c < 10000 /\ -10 < MF c < 100 /\ -100 < MT c < 1000.

(** white space only *)
Definition blank (s : str) : Prop := forall c, In c s -> is_ws c = true.

(** value of a string of decimal digits *)
Definition digits_value (s : str) : Z := fold_left (fun a c => 10 * a + digit_val c) s 0.

(** groups of digits joined by underscores, as Python's integer literals *)
Fixpoint join_us (gs : list str) : str :=
  match gs with
  | [] => []
  | [g] => g
  | g :: r => g ++ "_"%char :: join_us r
  end.
Definition digit_group (g : str) : Prop := g <> [] /\ forall c, In c g -> is_digit c = true.

(** [s] is the text of the integer [v] *)
Definition int_text (s : str) (v : Z) : Prop :=
  exists w1 sign gs w2,
    s = w1 ++ sign ++ join_us gs ++ w2 /\ blank w1 /\ blank w2 /\
    (sign = [] \/ sign = $"+" \/ sign = $"-") /\
    gs <> [] /\ Forall digit_group gs /\
    v = (if str_eqb sign $"-" then - 1 else 1) * digits_value (concat gs).

(** the characters of numbers in ENDF files *)
Definition number_char (c : ascii) : Prop :=
  is_digit c = true \/ In c $"+-.eE" \/ c = " "%char.
Definition number_field (s : str) : Prop := forall c, In c s -> number_char c.

(** the lines [ls] stand in [L] from position [ofs] on, each possibly followed by
    further columns (line numbers, a newline character) *)
Definition at_lines (ls L : list str) (ofs : nat) : Prop :=
  forall i l, nth_error ls i = Some l -> exists suf, nth_error L (ofs + i) = Some (l ++ suf).

(** the number [v] is printed into a field as some string that fills it, and this
    string is read as [w] *)
Definition float_rt (wo : wopts) (ro : ropts) (v w : num) : Prop :=
  exists s, float2fortstr wo v = Ok s /\ length s = w_width wo /\ read_fort_float ro s = Ok w.

(** [v] is acceptable in an integer slot and stands for [z] *)
Definition int_valued (wo : wopts) (v : num) (z : Z) : Prop :=
  v = NInt z \/ (w_strict wo = false /\ num_finite v = true /\ num_num v = z * num_den v).

(** [v] is written into an integer slot that is read back as [w] *)
Definition int_rt (wo : wopts) (v w : num) : Prop :=
  exists z, int_valued wo v z /\ in_field (w_width wo) z /\ w = NInt z.

(** six fields of a CONT record written and read back *)
Definition cont_rt (wo : wopts) (ro : ropts) (r r' : contrec) : Prop :=
  float_rt wo ro (C1 r) (C1 r') /\ float_rt wo ro (C2 r) (C2 r') /\
  int_rt wo (L1 r) (L1 r') /\ int_rt wo (L2 r) (L2 r') /\
  int_rt wo (N1 r) (N1 r') /\ int_rt wo (N2 r) (N2 r').

(** reader and writer use the same field width *)
Definition same_width (wo : wopts) (ro : ropts) : Prop :=
  r_width ro = w_width wo /\ (1 <= w_width wo)%nat.

(** number of lines needed for [n] numbers *)
Definition lines6 (n : nat) : nat := ((n + 5) / 6)%nat.

(** every line consists of six full fields *)
Definition full_lines (w : nat) (ls : list str) : Prop := Forall (fun l => length l = (6 * w)%nat) ls.

(** integers that fit into a field and are exact as doubles (table entries are read
    through the float reader) *)
Definition small_int (w : nat) (z : Z) : Prop := in_field w z /\ Z.abs z <= 2 ^ 53.

(** number of KIJ values in an INTG record for NDIGIT = 2, 4, 5, 6 *)
Definition intg_values (nd : Z) : nat :=
  if nd =? 2 then 18 else if nd =? 4 then 11 else if nd =? 5 then 9 else 8.
