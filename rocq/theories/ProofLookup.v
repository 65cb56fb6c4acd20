(** Proofs about the lookup of recipes (C47). *)
From Coq Require Import Ascii String ZArith Bool Lia List.
From Verif Require Import PyBase ProofPyBase ModelFortran ModelRecords ModelTape ModelRecipe ModelInterp ModelParser ModelFiles SpecFields SpecLibm SpecTape SpecFiles
  ProofTapeEx.
Import ListNotations.
Open Scope Z_scope.

Lemma get_in {A} k (v : A) l : NoDup (map fst l) -> ModelParser.zget k l = Some v <-> In (k, v) l.
Proof.
  induction l as [|[k' v'] l IH]; intros N; cbn [ModelParser.zget In]; [split; [discriminate|intros []]|]. cbn [map fst] in N. inversion N; subst.
  destruct (Z.eqb_spec k k') as [->|E].
  - split; [intros [= ->]; auto|]. intros [[= ->]|I]; [reflexivity|]. exfalso. apply H1. exact (in_map fst _ _ I).
  - rewrite IH by assumption. split; [auto|]. intros [[= -> ->]|I]; [congruence|exact I].
Qed.
Lemma get_none {A} k (l : list (Z * A)) : ModelParser.zget k l = None <-> forall v, ~ In (k, v) l.
Proof.
  induction l as [|[k' v'] l IH]; cbn [ModelParser.zget In]; [split; auto|]. destruct (Z.eqb_spec k k') as [->|E].
  - split; [discriminate|]. intros H. exfalso. apply (H v'). auto.
  - rewrite IH. split; intros H v; [intros [[= -> ->]|I]; [congruence|exact (H v I)]|intros I; exact (H v (or_intror I))].
Qed.
Lemma find_assigned rs mf mt b : recipe_dict rs -> find_recipe rs mf mt = Some b <-> assigned rs mf mt b.
Proof.
  intros [N M]. unfold find_recipe, assigned. destruct (ModelParser.zget mf rs) as [[b'|l]|] eqn:E.
  - apply get_in in E; [|exact N]. split; [intros [= ->]; auto|]. intros [I|[l [I _]]]; apply get_in in I; try exact N; apply get_in in E; try exact N; congruence.
  - pose proof (proj1 (get_in _ _ _ N) E) as I. pose proof (M _ _ I) as NL. split.
    + intros H. right. exists l. split; [exact I|]. destruct (ModelParser.zget mt l) eqn:F.
      * left. injection H as <-. exact (proj1 (get_in _ _ _ NL) F).
      * right. split; [exact (proj1 (get_none _ _) F)|exact (proj1 (get_in _ _ _ NL) H)].
    + intros [J|[l' [J H]]].
      * apply get_in in J; [|exact N]. congruence.
      * apply get_in in J; [|exact N]. rewrite E in J. injection J as <-. destruct H as [H|[H K]].
        -- apply get_in in H; [|exact NL]. rewrite H. reflexivity.
        -- pose proof (proj2 (get_none _ _) H) as H0. rewrite H0. apply get_in; assumption.
  - split; [discriminate|]. pose proof (proj1 (get_none _ _) E) as E0. intros [I|[l [I _]]]; exfalso; exact (E0 _ I).
Qed.
Lemma has_assigned rs mf mt : recipe_dict rs -> has_recipe rs mf mt = true <-> exists b, assigned rs mf mt b.
Proof.
  intros D. unfold has_recipe. destruct (find_recipe rs mf mt) as [b|] eqn:E.
  - apply find_assigned in E; [|exact D]. split; eauto.
  - split; [discriminate|]. intros [b A]. apply find_assigned in A; [|exact D]. congruence.
Qed.

Lemma parse_lookup p nofail exc inc o lines d o' :
  field_width (p_wo p) -> r_width (p_ro p) = w_width (p_wo p) -> recipe_dict (p_recipes p) ->
  parse p nofail exc inc o lines = (Ok d, o') ->
  exists d0, split_sections (p_ro p) lines = Ok d0 /\ forall mf mt x, holds d mf mt x ->
    exists ls, holds d0 mf mt ls /\
      ((forall b, ~ assigned (p_recipes p) mf mt b) -> x = Raw ls) /\
      (forall b, assigned (p_recipes p) mf mt b -> selected exc inc mf mt ->
         exists send o1 o2 res,
           parse_recipe (read_env (p_ro p) (p_wo p) (p_depth p)) b o1 (ls ++ [send]) = (res, o2) /\
           match res with
           | Ok y => x = Parsed y
           | Err e => nofail = true /\ is_parser_exception e = true /\ x = Raw (ls ++ [send])
           end).
Proof.
  intros FW RW D H. destruct (parse_selection_thm _ _ _ _ _ _ _ _ _ _ _ FW RW H) as [d0 [S [_ [_ B]]]]. exists d0. split; [exact S|].
  intros mf mt x X. destruct (B _ _ _ X) as [ls [L P]]. exists ls. split; [exact L|]. unfold section_parsed in P. cbv zeta in P. split.
  - intros N. destruct P as [[[R _] _]|[_ P]]; [|exact P]. apply has_assigned in R as [b A]; [|exact D]. exfalso. exact (N b A).
  - intros b A SEL. destruct P as [[_ [send [mat [mf' [o1 [_ [_ P]]]]]]]|[P _]].
    + unfold parse_one in P. rewrite (proj2 (find_assigned _ _ _ _ D) A) in P.
      destruct P as [[y [o2 [P ->]]]|[e [o2 [P [E [F ->]]]]]]; exists send, o1, o2; [exists (Ok y)|exists (Err e)]; auto.
    + exfalso. apply P. split; [|exact SEL]. apply has_assigned; eauto.
Qed.
