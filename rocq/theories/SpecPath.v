(** Specifications for paths into nested dictionaries, views and arrays (C36-C40). *)
From Coq Require Import Ascii String ZArith Bool List.
From Verif Require Import PyBase ModelInterp ModelPath SpecInterp.
Import ListNotations.
Open Scope Z_scope.

(** ** C37 *)

Definition container (v : val) : Prop := (exists d, v = VDict d) \/ (exists l, v = VList l).
Definition unique_keys (d : dict) : Prop := NoDup (map fst d).

(** ** C38 *)

Definition name_chr (c : ascii) : Prop := is_letter c = true \/ is_digit c = true \/ c = "_"%char.
(** names: letters, digits and underscores, not only underscores and no digit first; or the
    wildcard *)
Definition valid_name (s : str) : Prop :=
  s = $"*" \/
  Forall name_chr s /\ Exists (fun c => c <> "_"%char) s /\ (forall c r, s = c :: r -> is_digit c = false).
Definition valid_key (k : key) : Prop := match k with KInt z => 0 <= z | KStr s => valid_name s end.
Definition valid_path (p : list key) : Prop := Forall valid_key p.

(** a sequence of parts *)
Inductive parts : list pathspec -> list (list key) -> Prop :=
| pt_nil : parts [] []
| pt_cons x p l ps : path_of x = Ok p -> valid_path p -> parts l ps -> parts (x :: l) (p :: ps).

(** ** C40: the statements d[k1]..[kn] = x and del d[k1]..[kn] *)

Definition assign (p : list key) (x : val) (root : val) : result unit * val :=
  match p with
  | [] => (Ok tt, root)
  | _ => at_path (removelast p) (setitem (last p (KStr [])) x) root
  end.
Definition delete (p : list key) (root : val) : result unit * val :=
  match p with
  | [] => (Err IndexError, root)
  | _ => at_path (removelast p) (delitem (last p (KStr []))) root
  end.
(** all objects on the way along [p] are dictionaries *)
Definition through_dicts (p : list key) (c : val) : Prop :=
  forall a b, p = a ++ b -> b <> [] -> exists d, path_lookup a c = Ok (VDict d).

(** ** C36 *)

Definition array_keys (d : dict) (a b : Z) : Prop :=
  (forall k v, In (k, v) d -> exists z, k = KInt z /\ a <= z <= b) /\
  (exists v, In (KInt a, v) d) /\ (exists v, In (KInt b, v) d).

Inductive as_list : val -> val -> Prop :=
| al_other v : (forall d, v <> VDict d) -> as_list v v
| al_dict d d' : entries_as_list d d' -> (exists s v, In (KStr s, v) d) -> as_list (VDict d) (VDict d')
| al_array d a b l : array_keys d a b -> Z.of_nat (length l) = b - a + 1 ->
    (forall i w, nth_error l i = Some w ->
       element_as_list (dget (KInt (a + Z.of_nat i)) d) w) ->
    as_list (VDict d) (VList l)
with entries_as_list : dict -> dict -> Prop :=
| en_nil : entries_as_list [] []
| en_cons k v w d d' : as_list v w -> entries_as_list d d' -> entries_as_list ((k, v) :: d) ((k, w) :: d')
with element_as_list : option val -> val -> Prop :=
| ea_some v w : as_list v w -> element_as_list (Some v) w
| ea_none : element_as_list None VNone.

(** no empty dictionary inside *)
Inductive no_empty : val -> Prop :=
| ne_other v : (forall d, v <> VDict d) -> no_empty v
| ne_dict d : d <> [] -> (forall k v, In (k, v) d -> no_empty v) -> no_empty (VDict d).

(** accesses to the elements of an array, in order of time: the first index used after the
    indices [pre] *)
Inductive first_index : list (list Z) -> list Z -> Z -> Prop :=
| fi_here pre i r h : first_index ((pre ++ i :: r) :: h) pre i
| fi_later a pre i h : (forall j r, a <> pre ++ j :: r) -> first_index h pre i -> first_index (a :: h) pre i.
Definition after_accesses (h : list (list Z)) : startinfo :=
  fold_left (fun info idcs => snd (shift_indices idcs info)) h s_empty.
