(** What a query means (C49). *)
From Coq Require Import Ascii String ZArith Bool List.
From Verif Require Import PyBase ModelFortran ModelNum ModelRecipe ModelInterp ModelPath ModelMatch SpecPath.
Import ListNotations.
Open Scope Z_scope.

Definition element (v : val) (k : key) (x : val) : Prop :=
  match v with
  | VDict d => dget k d = Some x
  | VList l => exists i, k = KInt (Z.of_nat i) /\ nth_error l i = Some x
  | _ => False
  end.

(** [q] is the path [p] with an element chosen for every wildcard. All objects up to the last
    wildcard exist. *)
Inductive instance : list key -> val -> list key -> Prop :=
| in_plain p v : ~ In star p -> instance p v p
| in_key k p v x q : k <> star -> In star p -> path_lookup [k] v = Ok x -> instance p x q -> instance (k :: p) v (k :: q)
| in_star k p v x q : element v k x -> instance p x q -> instance (star :: p) v (k :: q).

(** the values an operand may have: None if the chosen path does not exist *)
Inductive operand : qexpr -> val -> val -> Prop :=
| op_num x v : operand (QNum x) v (VNum x)
| op_path p v q x : instance p v q -> path_lookup q v = Ok x -> operand (QPath p) v x
| op_absent p v q : instance p v q -> path_exists q v = false -> operand (QPath p) v VNone.

(** a relation between two objects: they are numbers, the exact order of which is the one asked
    for; NaN is different from every number and has no order *)
Definition related (r : rel) (x y : val) : Prop :=
  exists a b, x = VNum a /\ y = VNum b /\
    match r, num_cmp (plain a) (plain b) with
    | REq, Some Eq | RNe, (Some Lt | Some Gt | None) | RLt, Some Lt | RGt, Some Gt
    | RLe, (Some Lt | Some Eq) | RGe, (Some Gt | Some Eq) => True
    | _, _ => False
    end.

(** [can q v b]: with some choice for every wildcard the query [q] has the truth value [b]. Every
    occurrence of a wildcard is chosen on its own. *)
Inductive can : query -> val -> bool -> Prop :=
| can_or a b v x y : can a v x -> can b v y -> can (QOr a b) v (x || y)
| can_and a b v x y : can a v x -> can b v y -> can (QAnd a b) v (x && y)
| can_not a v x : can a v x -> can (QNot a) v (negb x)
| can_rel r a b v x y : operand a v x -> operand b v y -> related r x y -> can (QRel r a b) v true
| can_not_rel r a b v x y : operand a v x -> operand b v y -> ~ related r x y -> can (QRel r a b) v false
| can_prefix p a v q x b : instance p v q -> path_lookup q v = Ok x -> can a x b -> can (QPrefix p a) v b
| can_no_prefix p a v q : instance p v q -> path_exists q v = false -> can (QPrefix p a) v false
| can_exists p v q : instance p v q -> can (QExists p) v (path_exists q v).

(** paths with at most one wildcard, or with two of which one is the first element *)
Definition simple_path (p : list key) : Prop :=
  valid_path p /\ ((stars p <= 1)%nat \/ exists r, p = star :: r /\ (stars r <= 1)%nat).
Definition simple_expr (e : qexpr) : Prop := match e with QNum _ => True | QPath p => simple_path p end.
Fixpoint simple_query (q : query) : Prop :=
  match q with
  | QOr a b | QAnd a b => simple_query a /\ simple_query b
  | QNot a => simple_query a
  | QRel _ a b => simple_expr a /\ simple_expr b
  | QPrefix p a => simple_path p /\ simple_query a
  | QExists p => simple_path p
  end.
(** all keys are names or non-negative numbers *)
Definition named (v : val) : Prop :=
  forall p d k, path_lookup p v = Ok (VDict d) -> In k (map fst d) -> valid_key k /\ k <> star.
