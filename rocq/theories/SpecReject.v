(** Specification of the exceptions of texts that are not accepted (C64). *)
From Coq Require Import Ascii String ZArith Bool List.
From Verif Require Import PyBase PyFloat ModelFortran ModelRecords ModelTape SpecFields SpecTape.
Import ListNotations.
Open Scope Z_scope.

(** the control columns of the line (columns 67 to 75 for fields of 11 columns) are no numbers *)
Definition no_numbers (w : nat) (l : str) : Prop := ~ exists mat mf mt, carries w l mat mf mt.
(** the text has a line that is not blank, and the control columns of each such line are numbers *)
Definition has_numbers (w : nat) (lines : list str) : Prop :=
  (exists l, In l lines /\ ~ blank l) /\
  (forall l, In l lines -> ~ blank l -> exists mat mf mt, carries w l mat mf mt).
(** an exception of the package, or the one of [int] for control columns that are no numbers *)
Definition reported (w : nat) (lines : list str) (e : exn) : Prop :=
  is_parser_exception e = true \/ (e = ValueError /\ exists l, In l lines /\ ~ blank l /\ no_numbers w l).
(** [e] is the exception of the recipe for the lines [ls] of section [mf]/[mt], which is
    selected; with [nofail] it is none of the package. The recipe gets a SEND record in addition. *)
Definition from_recipe {P D} (pr : P -> Z -> Z -> list str -> result D * P) (has : Z -> Z -> bool)
  (nofail : bool) (exc inc : selection) (mf mt : Z) (ls : list str) (e : exn) : Prop :=
  has mf mt = true /\ selected exc inc mf mt /\ (nofail = true -> is_parser_exception e = false) /\
  exists p send p', pr p mf mt (ls ++ send) = (Err e, p').
