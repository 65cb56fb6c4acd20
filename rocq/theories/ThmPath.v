(** C36-C40: array types, paths, views. *)
From Coq Require Import Ascii String ZArith Bool Lia List.
From Verif Require Import PyBase ModelFortran ModelInterp ModelPath SpecInterp SpecPath ProofPath ProofPathStr.
Import ListNotations.
Open Scope Z_scope.

Definition n (z : Z) : val := VNum (NInt z).
Definition k (s : string) : key := KStr ($ s).

(** ** C36 *)

(** The conversion made by parse with array_type "list": every dictionary with integer keys only
    becomes a list, element i of it is the converted entry of the key (smallest key + i); all
    other entries keep their keys and order. *)
Theorem C36_same_data d d' : array_dict_to_list d = Ok d' -> entries_as_list d d'.
Proof. exact (array_dict_to_list_spec d d'). Qed.
Theorem C36_no_failure d : (forall k v, In (k, v) d -> no_empty v) -> exists d', array_dict_to_list d = Ok d'.
Proof. exact (array_dict_to_list_total d). Qed.
(** Writing from lists: after any accesses [h], the position used for the indices [idcs] is the
    index minus the first index ever used behind the same outer indices. *)
Theorem C36_positions h idcs j i : nth_error idcs j = Some i ->
  exists s, first_index (h ++ [idcs]) (firstn j idcs) s /\
            nth_error (fst (shift_indices idcs (after_accesses h))) j = Some (i - s).
Proof. exact (shift_spec idcs h j i). Qed.

Definition table : dict :=
  [(k "MAT", n 2631); (k "E", VDict [(KInt 3, VDict [(KInt 1, n 31); (KInt 2, n 32)]); (KInt 4, VDict [(KInt 1, n 41)])]);
   (k "SUB", VDict [(KInt 1, VDict [(k "X", n 7)]); (k "N", n 1)])].
Example C36_example :
  array_dict_to_list table =
    Ok [(k "MAT", n 2631); (k "E", VList [VList [n 31; n 32]; VList [n 41]]);
        (k "SUB", VDict [(KInt 1, VDict [(k "X", n 7)]); (k "N", n 1)])] /\
  (forall key v, In (key, v) table -> no_empty v) /\
  fst (shift_indices [4; 1] (after_accesses [[3; 1]; [3; 2]])) = [1; 0] /\
  fst (shift_indices [3; 2] (after_accesses [[3; 1]])) = [0; 1].
Proof.
  repeat split.
  intros key v I. repeat (destruct I as [E|I]; [injection E as <- <-|]); try destruct I;
    repeat (first [apply ne_other; discriminate | apply ne_dict; [discriminate|]; intros ? ? I; repeat (destruct I as [E|I]; [injection E as <- <-|]); try destruct I]).
Qed.
(** an empty array makes the conversion fail; a gap becomes None, which no writer accepts *)
Theorem C36_empty_refuted : exists d, array_dict_to_list d = Err ValueError.
Proof. exists [(k "E", VDict [])]. reflexivity. Qed.
Print Assumptions C36_empty_refuted.
Theorem C36_gap_refuted : exists d, array_dict_to_list d = Ok [(k "E", VList [n 1; VNone; n 3])].
Proof. exists [(k "E", VDict [(KInt 1, n 1); (KInt 3, n 3)])]. reflexivity. Qed.
Print Assumptions C36_gap_refuted.

(** ** C37 *)

Theorem C37_get_after_set o lead p v d d' : p <> [] -> path_set o lead p v d = (Ok tt, d') -> path_lookup p d' = Ok v.
Proof. intros N. exact (get_after_set o p v N lead d d'). Qed.
(** also if the call fails *)
Theorem C37_others_kept o lead p v d r d' q w : p <> [] -> path_set o lead p v d = (r, d') -> unrelated p q ->
  path_lookup q d' = Ok w <-> path_lookup q d = Ok w.
Proof. intros N. exact (others_after_set o p v N lead d r d' q w). Qed.
Theorem C37_failed_set o lead p v d e d' q w : path_set o lead p v d = (Err e, d') -> ~ container w ->
  path_lookup q d = Ok w -> path_lookup q d' = Ok w.
Proof. exact (failed_set_keeps o p v lead d e d' q w). Qed.
(** in "dict" mode setting fails only where something that is no dictionary is in the way *)
Theorem C37_set_succeeds o lead p v d : po_dict o = true ->
  (forall a b x, p = a ++ b -> b <> [] -> path_lookup a d = Ok x -> exists dd, x = VDict dd) ->
  exists d', path_set o lead p v d = (Ok tt, d').
Proof. intros O. exact (set_succeeds o p v O lead d). Qed.
Theorem C37_exists p d : path_exists p d = true <-> exists v, path_lookup p d = Ok v.
Proof. exact (exists_iff p d). Qed.
Theorem C37_remove p d d' dd : path_remove p d = (Ok tt, d') -> path_lookup (removelast p) d = Ok (VDict dd) -> unique_keys dd ->
  path_exists p d' = false /\ forall q w, unrelated p q -> path_lookup q d' = Ok w <-> path_lookup q d = Ok w.
Proof. exact (remove_spec p d d' dd). Qed.
Theorem C37_remove_succeeds p d dd v : p <> [] -> path_lookup (removelast p) d = Ok (VDict dd) -> path_lookup p d = Ok v ->
  exists d', path_remove p d = (Ok tt, d').
Proof. exact (remove_succeeds p d dd v). Qed.

Definition in_lists : pathopts := {| po_dict := false; po_leading := true |}.
Definition in_dicts : pathopts := {| po_dict := true; po_leading := true |}.
Example C37_example :
  let p := [KInt 3; KInt 1; k "E"; KInt 0; KInt 0] in
  path_set in_lists true p (n 5) (VDict []) =
    (Ok tt, VDict [(KInt 3, VDict [(KInt 1, VDict [(k "E", VList [VList [n 5]])])])]) /\
  path_set in_dicts true p (n 5) (VDict []) =
    (Ok tt, VDict [(KInt 3, VDict [(KInt 1, VDict [(k "E", VDict [(KInt 0, VDict [(KInt 0, n 5)])])])])]) /\
  unrelated p [KInt 3; KInt 1; k "NE"] /\
  path_remove [k "E"; KInt 3] (VDict table) =
    (Ok tt, VDict [(k "MAT", n 2631); (k "E", VDict [(KInt 4, VDict [(KInt 1, n 41)])]);
                   (k "SUB", VDict [(KInt 1, VDict [(k "X", n 7)]); (k "N", n 1)])]).
Proof. repeat split; intros [c H]; discriminate. Qed.
(** removing from a list moves the elements behind; setting the empty path does nothing *)
Theorem C37_remove_list_refuted : exists p d d', path_remove p d = (Ok tt, d') /\ path_exists p d' = true /\
  exists q w, unrelated p q /\ path_lookup q d = Ok w /\ path_exists q d' = false.
Proof.
  exists [KInt 0], (VList [n 1; n 2]), (VList [n 2]). repeat split. exists [KInt 1], (n 2). repeat split; intros [c H]; discriminate.
Qed.
Print Assumptions C37_remove_list_refuted.
Theorem C37_empty_path_refuted : exists v d, path_set in_dicts true [] v d = (Ok tt, d) /\ path_lookup [] d <> Ok v.
Proof. exists (n 1), (VDict []). split; [reflexivity|discriminate]. Qed.
Print Assumptions C37_empty_path_refuted.
(** a call that fails may leave new empty dictionaries and lists behind *)
Theorem C37_failed_leaves_refuted : exists p v d d' e, path_set in_lists true p v d = (Err e, d') /\ d' <> d.
Proof.
  exists [k "A"; KInt 1], (n 1), (VDict []), (VDict [(k "A", VList [])]), IndexError. split; [reflexivity|discriminate].
Qed.
Print Assumptions C37_failed_leaves_refuted.

(** ** C38 *)

Theorem C38_constructed x p : (forall q, x = PPath q -> valid_path q) -> path_of x = Ok p -> valid_path p.
Proof. exact (path_of_valid x p). Qed.
Theorem C38_string p : valid_path p -> path_of (PStr (path_str p)) = Ok p.
Proof. exact (path_of_str p). Qed.
Theorem C38_unambiguous p q : valid_path p -> valid_path q -> path_str p = path_str q -> p = q.
Proof. intros P Q E. pose proof (path_of_str p P) as A. rewrite E in A. rewrite (path_of_str q Q) in A. injection A as <-. reflexivity. Qed.
Print Assumptions C38_unambiguous.
Theorem C38_sequence p : valid_path p -> path_of (PSeq p) = Ok p.
Proof. exact (path_of_seq p). Qed.
Print Assumptions C38_sequence.
Theorem C38_number z : 0 <= z -> path_of (PInt z) = Ok [KInt z].
Proof. exact (path_of_int z). Qed.
Print Assumptions C38_number.
Theorem C38_brackets p s l : valid_path p -> valid_name s -> l <> [] -> Forall (fun z => 0 <= z) l ->
  path_of (PStr (path_str (p ++ [KStr s]) ++ $"[" ++ join $"," (map str_of_Z l) ++ $"]")) = Ok (p ++ KStr s :: map KInt l).
Proof. exact (path_brackets p s l). Qed.
Theorem C38_concatenation p q : valid_path p -> valid_path q -> path_add p q = Ok (p ++ q).
Proof. exact (path_add_app p q). Qed.
Print Assumptions C38_concatenation.
Theorem C38_mixed l ps : parts l ps -> key_path (KeySeq l) = Ok (List.concat ps).
Proof. intros P. exact (add_all_parts l ps P [] (Forall_nil _)). Qed.

Definition p3 : list key := [KInt 3; KInt 1; k "AWR"].
Lemma p3_valid : valid_path p3.
Proof.
  repeat (constructor; [cbn; try lia|]); [|constructor]. right. split; [repeat constructor; left; reflexivity|].
  split; [apply Exists_cons_hd; discriminate|]. intros c r E. injection E as <- _. reflexivity.
Qed.
Example C38_example :
  valid_path p3 /\ path_str p3 = $"3/1/AWR" /\ path_of (PStr $" 3/1//AWR/ ") = Ok p3 /\
  path_of (PStr $"3/2/E[1, 2]") = Ok [KInt 3; KInt 2; k "E"; KInt 1; KInt 2] /\
  parts [PInt 3; PStr $"1/AWR"] [[KInt 3]; [KInt 1; k "AWR"]] /\
  path_of (PStr $"3/_/x") = Err ValueError /\ path_of (PStr $"3/1b") = Err ValueError.
Proof.
  split; [exact p3_valid|]. repeat (split; [vm_compute; reflexivity|]). split; [|split; vm_compute; reflexivity].
  pose proof p3_valid as V. inversion V as [|a b V1 V2 E]; subst.
  constructor; [reflexivity|repeat constructor; exact V1|]. constructor; [reflexivity|exact V2|constructor].
Qed.

(** ** C39 *)

(** Paths compare equal as soon as one is a prefix of the other. *)
Theorem C39_compares_prefixes p q : path_eqb p q = true <-> is_prefix p q \/ is_prefix q p.
Proof. exact (path_eqb_iff p q). Qed.
(** Missing: paths of different lengths, for which the property is false. *)
Theorem C39_same_length_partial p q : length p = length q -> path_eqb p q = true <-> p = q.
Proof. exact (path_eqb_same_length p q). Qed.
Theorem C39_equal_refuted : exists p q, valid_path p /\ valid_path q /\ path_eqb p q = true /\ p <> q.
Proof. exists p3, []. split; [exact p3_valid|]. split; [constructor|]. split; [reflexivity|discriminate]. Qed.
Print Assumptions C39_equal_refuted.
Theorem C39_transitive_refuted : exists p q r, path_eqb p q = true /\ path_eqb q r = true /\ path_eqb p r = false.
Proof. exists [KInt 3], [], [KInt 4]. repeat split. Qed.
Print Assumptions C39_transitive_refuted.

(** ** C40 *)

(** Reading through a view is reading the data at its path; nested views refer to the data
    themselves. *)
Theorem C40_get w x p root : key_path x = Ok p ->
  match path_lookup (v_at w ++ p) root with
  | Err e => view_get w x root = Err e
  | Ok y => (~ container y -> view_get w x root = Ok (GVal y)) /\
            (container y -> exists w', view_get w x root = Ok (GView w') /\ v_at w' = v_at w ++ p /\ view_object w' root = Ok y)
  end.
Proof. exact (view_get_spec w x p root). Qed.
Theorem C40_set w x p v root root' : key_path x = Ok p -> p <> [] -> (forall c, path_lookup (v_at w) root = Ok c -> container c) ->
  view_set w x v root = (Ok tt, root') ->
  path_lookup (v_at w ++ p) root' = Ok v /\
  forall q y, unrelated (v_at w ++ p) q -> path_lookup q root' = Ok y <-> path_lookup q root = Ok y.
Proof. exact (view_set_spec w x p v root root'). Qed.
(** where the dictionaries exist, setting through a view is the plain assignment *)
Theorem C40_assignment w x p v root c : po_dict (v_opts w) = true -> key_path x = Ok p -> p <> [] ->
  path_lookup (v_at w) root = Ok c -> through_dicts p c ->
  view_set w x v root = assign (v_at w ++ p) v root.
Proof. exact (view_set_assign w x p v root c). Qed.
Theorem C40_delete w x p root : (forall q, x <> PPath q) -> path_of x = Ok p -> p <> [] ->
  view_del w x root = delete (v_at w ++ p) root.
Proof. exact (view_del_delete w x p root). Qed.
Theorem C40_variable_get p root : p <> [] -> variable_get p root = path_lookup p root.
Proof. exact (variable_get_spec p root). Qed.
Theorem C40_variable_set p v root : p <> [] -> variable_set p v root = assign p v root.
Proof. exact (variable_set_spec p v root). Qed.

Definition data : val := VDict [(KInt 3, VDict [(KInt 1, VDict table)])].
Definition w1 : view := {| v_at := [KInt 3]; v_path := [KInt 3]; v_opts := in_dicts |}.
Definition w2 : view := {| v_at := [KInt 3; KInt 1]; v_path := [KInt 1]; v_opts := in_dicts |}.
Example C40_example :
  view_get (dict_view true) (KeyOne (PInt 3)) data = Ok (GView w1) /\
  view_get w1 (KeyOne (PInt 1)) data = Ok (GView w2) /\
  view_get w2 (KeyOne (PStr $"E/3[2]")) data = Ok (GVal (n 32)) /\
  through_dicts [k "E"; KInt 3; KInt 2] (VDict table) /\
  fst (view_set w2 (KeyOne (PStr $"E/3/2")) (n 33) data) = Ok tt /\
  fst (view_del w2 (PStr $"E/3/2") data) = Ok tt.
Proof.
  repeat (split; [vm_compute; reflexivity|]). split; [|split; vm_compute; reflexivity].
  intros a b E N. destruct a as [|a1 a]; [eexists; reflexivity|]. injection E as <- E. destruct a as [|a2 a]; [eexists; reflexivity|].
  injection E as <- E. destruct a as [|a3 a]; [eexists; reflexivity|]. injection E as <- E. destruct a; [|discriminate]. destruct b; [contradiction|discriminate].
Qed.
(** deleting with an EndfPath fails, and the path attribute of a view taken from a view does not
    lead from the outermost dictionary *)
Theorem C40_delete_path_refuted : exists w p root, path_exists (v_at w ++ p) root = true /\ view_del w (PPath p) root = (Err NameError, root).
Proof. exists w2, [k "E"], data. split; reflexivity. Qed.
Print Assumptions C40_delete_path_refuted.
Theorem C40_path_refuted : exists w root, view_get w1 (KeyOne (PInt 1)) root = Ok (GView w) /\ path_exists (v_path w) root = false.
Proof. exists w2, data. split; reflexivity. Qed.
Print Assumptions C40_path_refuted.

Print Assumptions C36_same_data.
Print Assumptions C36_no_failure.
Print Assumptions C36_positions.
Print Assumptions C37_get_after_set.
Print Assumptions C37_others_kept.
Print Assumptions C37_failed_set.
Print Assumptions C37_set_succeeds.
Print Assumptions C37_exists.
Print Assumptions C37_remove.
Print Assumptions C37_remove_succeeds.
Print Assumptions C38_constructed.
Print Assumptions C38_string.
Print Assumptions C38_brackets.
Print Assumptions C38_mixed.
Print Assumptions C39_compares_prefixes.
Print Assumptions C39_same_length_partial.
Print Assumptions C40_get.
Print Assumptions C40_set.
Print Assumptions C40_assignment.
Print Assumptions C40_delete.
Print Assumptions C40_variable_get.
Print Assumptions C40_variable_set.
