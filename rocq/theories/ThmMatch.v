(** C49: queries. *)
From Coq Require Import Ascii String ZArith Bool Lia List.
From Verif Require Import PyBase ModelFortran ModelRecipe ModelInterp ModelPath ModelMatch SpecPath SpecMatch ProofMatch.
Import ListNotations.
Open Scope Z_scope.

Local Definition n (z : Z) : val := VNum (NInt z).
Local Definition k (s : string) : key := KStr ($ s).

(** The paths generated for a pattern are its instances: only instances are generated, and all of
    them unless an exception is raised.
    Missing: patterns with more wildcards, for which this is false. *)
Theorem C49_paths_partial p v : simple_path p -> named v ->
  (forall q, In q (fst (endf_path_generator p v)) -> instance p v q) /\
  (snd (endf_path_generator p v) = None -> forall q, instance p v q -> In q (fst (endf_path_generator p v))).
Proof. exact (generator_yields p v). Qed.
(** A query matches if and only if some choice for its wildcards makes it true, unless an
    exception is raised. Missing: as above. *)
Theorem C49_matches_partial q v b : simple_query q -> named v -> eval_tree_print q v = Ok b -> b = true <-> can q v true.
Proof. exact (query_decides q v b). Qed.

Local Definition data : val :=
  VDict [(KInt 1, VDict [(KInt 451, VDict [(k "AWR", n 55); (k "NLIB", n 0)])]);
         (KInt 3, VDict [(KInt 1, VDict [(k "QM", n 0); (k "xs", VDict [(KInt 1, n 5); (KInt 2, n 7)])]);
                         (KInt 2, VDict [(k "QM", n 8)])]);
         (KInt 4, VDict [(KInt 2, VList [VStr $"a"; VStr $"b"])])].
Ltac key_ok := first [ cbn; lia | left; reflexivity | apply letters_valid; [repeat (constructor; [reflexivity|]); constructor|discriminate] ].
Lemma data_named : named data.
Proof.
  unfold data. repeat first [ apply named_dict | apply named_list | apply named_num | apply named_str
    | apply Forall_nil | apply Forall_cons; [first [split; [cbn [fst]; key_ok|split; [discriminate|cbn [snd]]] | idtac]|] ].
Qed.
Local Definition p_qm : list key := [KInt 3; star; k "QM"].
Local Definition p_any : list key := [star; star; k "AWR"].
Lemma paths_simple : simple_path p_qm /\ simple_path p_any /\ simple_path [KInt 1; KInt 451; k "AWR"] /\ simple_path [KInt 3; star] /\ simple_path [k "QM"].
Proof.
  assert (V : forall p, valid_path p -> (stars p <= 1)%nat -> simple_path p) by (intros p A B; split; auto).
  assert (W : forall r, valid_path (star :: r) -> (stars r <= 1)%nat -> simple_path (star :: r)) by (intros r A B; split; eauto).
  unfold p_qm, p_any. repeat match goal with |- _ /\ _ => split end; (first [apply W|apply V]; [repeat (apply Forall_cons; [key_ok|]); apply Forall_nil|cbn; lia]).
Qed.
(** /3/*/QM > 7 & /1/451/AWR == 55, !(/3/*(exists(/QM))), /*/*/AWR < 55 *)
Local Definition q1 : query := QAnd (QRel RGt (QPath p_qm) (QNum (NInt 7))) (QRel REq (QPath [KInt 1; KInt 451; k "AWR"]) (QNum (NInt 55))).
Local Definition q2 : query := QNot (QPrefix [KInt 3; star] (QExists [k "QM"])).
Local Definition q3 : query := QRel RLt (QPath p_any) (QNum (NInt 55)).
Example C49_example :
  simple_query q1 /\ simple_query q2 /\ simple_query q3 /\ named data /\
  endf_path_generator p_qm data = ([[KInt 3; KInt 1; k "QM"]; [KInt 3; KInt 2; k "QM"]], None) /\
  eval_tree_print q1 data = Ok true /\ eval_tree_print q2 data = Ok false /\ eval_tree_print q3 data = Ok false.
Proof.
  destruct paths_simple as (A & B & C & D & E). cbn [simple_query simple_expr q1 q2 q3].
  repeat (split; [first [exact data_named|reflexivity|tauto]|]). reflexivity.
Qed.

(** With two wildcards behind another element a match is missed: /3/*/xs/* == 7. The paths of all
    elements but the first of the inner dictionary are wrong. *)
Theorem C49_two_wildcards_refuted : exists q v, named v /\ eval_tree_print q v = Ok false /\ can q v true.
Proof.
  exists (QRel REq (QPath [KInt 3; star; k "xs"; star]) (QNum (NInt 7))), data.
  split; [exact data_named|]. split; [reflexivity|].
  apply (can_rel REq _ _ data (n 7) (n 7)); [|constructor|exists (NInt 7), (NInt 7); repeat split].
  apply op_path with (q := [KInt 3; KInt 1; k "xs"; KInt 2]); [|reflexivity].
  eapply in_key; [discriminate|cbn; tauto|reflexivity|]. eapply in_star; [reflexivity|].
  eapply in_key; [discriminate|cbn; tauto|reflexivity|]. eapply in_star; [reflexivity|]. apply in_plain. intros [].
Qed.
Print Assumptions C49_two_wildcards_refuted.
(** A pattern behind an index that a list does not have raises an exception instead of not
    matching: "exists(/4/2/5/* )". *)
Theorem C49_index_refuted : exists q v, simple_query q /\ named v /\ eval_tree_print q v = Err IndexError.
Proof.
  exists (QExists [KInt 4; KInt 2; KInt 5; star]), data. split; [|split; [exact data_named|reflexivity]].
  split; [repeat (constructor; [key_ok|]); constructor|left; cbn; lia].
Qed.
Print Assumptions C49_index_refuted.
(** An alternative without any path makes the whole query fail: "exists(/9/* ) | exists(/1)". *)
Theorem C49_alternative_refuted : exists a b v, simple_query a /\ simple_query b /\ named v /\
  eval_tree_print b v = Ok true /\ eval_tree_print (QOr a b) v = Ok false.
Proof.
  exists (QExists [KInt 9; star]), (QExists [KInt 1]), data.
  split; [split; [repeat (constructor; [key_ok|]); constructor|left; cbn; lia]|].
  split; [split; [repeat (constructor; [key_ok|]); constructor|left; cbn; lia]|].
  split; [exact data_named|]. split; reflexivity.
Qed.
Print Assumptions C49_alternative_refuted.

Print Assumptions C49_paths_partial.
Print Assumptions C49_matches_partial.
