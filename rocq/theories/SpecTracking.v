(** Specification of complete retrieval (C42). *)
From Coq Require Import Ascii String ZArith Bool List.
From Verif Require Import PyBase ModelInterp ModelPath ModelTracking.
Import ListNotations.
Open Scope Z_scope.

(** the paths read by a statement: its own one or the one of the object changed *)
Definition path_of_op (o : op) : list key :=
  match o with ORead p => p | OSet p _ _ => p | ODel p _ => p end.
(** [p] was read in the course of the statements *)
Definition was_read (ops : list op) (p : list key) : Prop :=
  exists o r, In o ops /\ path_of_op o = p ++ r.

(** a key starting with two underscores *)
Definition internal_key (k : key) : Prop := exists r, k = KStr ($"__" ++ r).

(** statements that read, or set or delete entries stored under keys starting with two
    underscores, as the interpreter does when writing *)
Definition reads_or_hidden (o : op) : Prop :=
  match o with ORead _ => True | OSet _ k _ => internal_key k | ODel _ k => internal_key k end.

(** [v] is the object in [root] at the path [q], there are only dictionaries on the way and no
    key of [q] starts with two underscores *)
Inductive reaches : val -> list key -> val -> Prop :=
| rc_here v : reaches v [] v
| rc_step d k x q v : ~ internal_key k -> dget k d = Some x -> reaches x q v -> reaches (VDict d) (k :: q) v.

(** the array [v] has an element with the index [i] *)
Definition has_element (v : val) (i : Z) : Prop :=
  match v with
  | VDict d => exists x, dget (KInt i) d = Some x
  | VList l => 0 <= i < Z.of_nat (length l)
  | _ => False
  end.

(** an array with an element that was read and another one that was not *)
Definition partly_read (root : val) (ops : list op) : Prop :=
  exists q v i j, reaches root q v /\ has_element v i /\ has_element v j /\
    was_read ops (q ++ [KInt i]) /\ ~ was_read ops (q ++ [KInt j]).
