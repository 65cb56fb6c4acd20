(** What is said about the arrays of compiled parsers.

    An array is filled by assignments to places, a place being the list of its indices. The
    interpreter keeps the array as nested dictionaries. *)
From Coq Require Import Ascii String ZArith Bool Lia List.
From Verif Require Import PyBase ModelInterp.
Import ListNotations.
Open Scope Z_scope.

Definition place : Type := list Z.

(** the array of the Python parser after the assignments *)
Fixpoint py_fill (ops : list (place * val)) (a : val) : result val :=
  match ops with
  | [] => Ok a
  | (p, v) :: r => do a' <- set_indexed p v a; py_fill r a'
  end.

(** the sections opened and filled by the Python parser *)
Fixpoint py_sections (ops : list (place * (dict -> dict))) (a : val) : result val :=
  match ops with
  | [] => Ok a
  | (p, body) :: r =>
      do (found, a1) <- open_path true [] (map KInt p) a;
      py_sections r (put_path (map KInt p) (VDict (body found)) a1)
  end.

(** [p] can be assigned after [before]: at every level its index is the first one there, or has
    been used before, or is one more than an index used before. *)
Definition follows (before : list place) (p : place) : Prop :=
  forall pre i post, p = pre ++ i :: post ->
    (forall j rest, ~ In (pre ++ j :: rest) before) \/
    (exists j rest, (j = i \/ j = i - 1) /\ In (pre ++ j :: rest) before).
Fixpoint in_order (before ps : list place) : Prop :=
  match ps with
  | [] => True
  | p :: r => follows before p /\ in_order (before ++ [p]) r
  end.

(** all places have [n] indices, none of them negative *)
Definition indices (n : nat) (ps : list place) : Prop :=
  forall p, In p ps -> length p = n /\ Forall (fun i => 0 <= i) p.

(** nested loops: [Loop a b body] is [for i = a to b], the body may depend on [i] *)
Inductive loops : Type := Body | Loop (a b : Z) (body : Z -> loops).
Fixpoint loop_places (l : loops) : list place :=
  match l with
  | Body => [[]]
  | Loop a b body => flat_map (fun i => map (cons i) (loop_places (body i))) (zrange a b)
  end.
(** no loop is empty *)
Fixpoint turning (l : loops) : Prop :=
  match l with
  | Body => True
  | Loop a b body => a <= b /\ forall i, a <= i <= b -> turning (body i)
  end.
(** [n] nested loops from bounds that are not negative; only the outermost may be empty *)
Fixpoint regular (n : nat) (l : loops) : Prop :=
  match n, l with
  | O, Body => True
  | S k, Loop a b body => 0 <= a /\ forall i, a <= i <= b -> regular k (body i) /\ turning (body i)
  | _, _ => False
  end.

(** The assignments of a loop whose places all begin with the same indices. *)
Definition row_ops (row : place * list (place * val)) : list (place * val) :=
  map (fun o => (fst row ++ fst o, snd o)) (snd row).

(** the cells of a matrix: all of them, from the diagonal on, up to the diagonal *)
Inductive shape : Type := Full | Upper | Lower.
Definition cell (sh : shape) (r0 r1 c0 c1 i j : Z) : Prop :=
  r0 <= i <= r1 /\
  match sh with
  | Full => c0 <= j <= c1
  | Upper => c0 + (i - r0) <= j <= c1
  | Lower => c0 <= j <= c0 + (i - r0)
  end.
Definition is_triangle (sh : shape) : bool := match sh with Full => false | _ => true end.
Definition is_lower (sh : shape) : bool := match sh with Lower => true | _ => false end.
(** what a matrix can hold: indices of [int], a number of cells below 2^60, and a diagonal
    that does not leave it *)
Definition matrix_size (sh : shape) (r0 r1 c0 c1 : Z) : Prop :=
  0 <= r0 <= r1 /\ r1 < 2 ^ 31 /\ 0 <= c0 <= c1 /\ c1 < 2 ^ 31 /\
  (r1 - r0 + 1) * (c1 - c0 + 1) < 2 ^ 60 /\
  match sh with Full => True | _ => c0 + (r1 - r0) <= c1 end.
Definition matrix_places (ops : list (Z * Z * val)) : list (place * val) :=
  map (fun o => ([fst (fst o); snd (fst o)], snd o)) ops.
