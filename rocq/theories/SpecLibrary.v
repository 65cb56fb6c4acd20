(** Specification for C63. *)
From Coq Require Import Ascii String ZArith Bool List.
From Verif Require Import PyBase PyFloat ModelFortran ModelRecords ModelTape ModelInterp.
Import ListNotations.
Open Scope Z_scope.

(** the libraries that can be chosen, with NLIB, NVER and LREL *)
Definition libraries : list (str * (Z * Z * Z)) :=
  [ ($"ENDF/B-VII.0", (0, 7, 0)); ($"ENDF/B-VII.1", (0, 7, 1)); ($"ENDF/B-VIII.0", (0, 8, 0)); ($"FENDL-3.2", (33, 3, 2)) ].
Definition known_library (lib : str) : Prop := In lib (map fst libraries).

(** the section names the library [lib] in its numbers *)
Definition has_number (m : dict) (x : str) (z : Z) : Prop := dget (KStr x) m = Some (VNum (NInt z)).
Definition numbers_of (lib : str) (m : dict) : Prop :=
  exists nlib nver lrel, In (lib, (nlib, nver, lrel)) libraries /\
    has_number m $"NLIB" nlib /\ has_number m $"NVER" nver /\ has_number m $"LREL" lrel.
Definition library_keys : list key := map KStr [ $"NLIB"; $"NVER"; $"LREL" ].

(** four hyphens, blanks, a capital letter and another character: "---- ENDF/B-VIII.0" *)
Definition capitals : str := $"ABCDEFGHIJKLMNOPQRSTUVWXYZ".
Definition third_line (s : str) : Prop :=
  exists n c d r, s = $"----" ++ repeat " "%char n ++ c :: d :: r /\ In c capitals /\ d <> " "%char.
(** the first 22 columns name the library, the others are those of [s] *)
Definition renamed (lib s s' : str) : Prop :=
  exists n, s' = $"----" ++ lib ++ repeat " "%char n ++ skipn 22 s /\ (4 + length lib + n = 22)%nat.
(** line number [i] (from 0) is replaced *)
Definition replaced {A} (i : nat) (x : A) (l l' : list A) : Prop :=
  exists p y q, l = p ++ y :: q /\ l' = p ++ x :: q /\ length p = i.
