(** Specification vocabulary for the functions that the compiler generates for writing. *)
From Coq Require Import Ascii String ZArith Bool List.
From Coq Require Import Floats.SpecFloat.
From Verif Require Import PyBase PyFloat ModelFortran ModelRecords ModelTape ModelInterp ModelCpp ModelCppTab SpecCpp SpecCppTab ModelCppGen ModelCppWrite.
Import ListNotations.
Open Scope Z_scope.

(** What a run must not have done: a condition or the end of a loop did not meet a variable hidden by
    a dictionary entry, or one that is in a dictionary and had not been written; every real number is
    one of which Python writes the same text; texts fill their fields; no list was empty. If [whole]
    is set, every list fills its last line. *)
Definition regular_wnote (o : cwopts) (preserve : bool) (wo : wopts) (whole : bool) (n : wnote) : Prop :=
  match n with
  | Hidden _ | Unwritten _ | Control _ | NoElements => False
  | Real v e => same_text o preserve wo v e
  | TextSize k t => length t = k
  | Padding => whole = false
  end.

(** A line [a] of Python and a line [b] of C++, without control columns: the same, or the last line
    of a list, where Python writes zeros into the fields behind the last element and C++ nothing *)
Definition padded (wo : wopts) (a b : str) : Prop :=
  exists t z k, float2fortstr wo (NFlt (S754_zero false)) = Ok z /\ a = t ++ concat (repeat z k) /\ b = t ++ spaces (11 * k).
Definition body_alike (wo : wopts) (whole : bool) (a b : str) : Prop := a = b \/ (whole = false /\ padded wo a b).
(** the same for whole lines: control columns and line numbers are the same *)
Definition line_alike (wo : wopts) (whole : bool) (a b : str) : Prop :=
  exists p q r, a = p ++ r /\ b = q ++ r /\ body_alike wo whole p q.
