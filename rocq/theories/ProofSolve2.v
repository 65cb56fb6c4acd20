(** The solver applied to the fields of the recipes; expressions on which it fails. *)
From Coq Require Import Ascii String ZArith Bool List.
From Verif Require Import PyBase ModelFortran ModelRecipe ModelInterp ModelRecipes ProofPyBase SpecRound ProofRound2 ModelSolve SpecSolve ProofSolve.
Import ListNotations.
Open Scope Z_scope.

Definition one_indexing_b (t : tree) : bool :=
  forallb (fun p => forallb (fun q => implb (str_eqb (fst p) (fst q)) (list_eqb idx_eqb (snd p) (snd q))) (vars_of t)) (vars_of t).
Definition field_ok (f : tree) : bool :=
  one_indexing_b f && negb (existsb (str_eqb $"cpp_val") (map fst (vars_of f))) &&
  forallb (fun q => match get_varassign true 100 (TVar (fst q) (snd q)) f with
                    | Got _ => true
                    | Raised _ => match get_varassign false 100 (TVar (fst q) (snd q)) f with Raised e => is_reported e | Got _ => false end
                    end) (vars_of f).
Lemma recipes_checked : forallb (fun q => forallb field_ok (recipe_fields (snd q))) all_recipes = true.
Proof. vm_compute. reflexivity. Qed.
Lemma one_indexing_ok t : one_indexing_b t = true -> one_indexing t.
Proof.
  intros H x ix jx H1 H2. unfold one_indexing_b in H. rewrite forallb_forall in H. apply H in H1. rewrite forallb_forall in H1. apply H1 in H2.
  cbn [fst snd] in H2. rewrite str_eqb_refl in H2. exact (list_eqb_eq _ idx_eqb_eq _ _ H2).
Qed.
Lemma recipes_solved name b f x ix :
  In (name, b) all_recipes -> In f (recipe_fields b) -> In (x, ix) (vars_of f) ->
  one_indexing f /\ ~ In $"cpp_val" (map fst (vars_of f)) /\
  ((exists e, get_varassign true 100 (TVar x ix) f = Got (TVar x ix, e) /\ get_varassign false 100 (TVar x ix) f = Got (TVar x ix, e)) \/
   (exists e, is_reported e = true /\ get_varassign false 100 (TVar x ix) f = Raised e)).
Proof.
  intros Hb Hf Hx. pose proof recipes_checked as C. rewrite forallb_forall in C. apply C in Hb. cbn [snd] in Hb. rewrite forallb_forall in Hb. apply Hb in Hf.
  unfold field_ok in Hf. apply andb_prop in Hf as [Hf H3]. apply andb_prop in Hf as [H1 H2]. apply one_indexing_ok in H1.
  assert (N : ~ In $"cpp_val" (map fst (vars_of f))) by (intros Q; apply negb_true_iff in H2; assert (X : existsb (str_eqb $"cpp_val") (map fst (vars_of f)) = true) by (apply existsb_exists; exists $"cpp_val"; split; [exact Q|apply str_eqb_refl]); congruence).
  split; [exact H1|]. split; [exact N|]. rewrite forallb_forall in H3. pose proof (H3 _ Hx) as H4. cbn [fst snd] in H4.
  destruct (get_varassign true 100 (TVar x ix) f) as [[l e]|e] eqn:E.
  - left. destruct (solution rationals rationals_ring rationals_div rationals_add rationals_mul _ _ _ _ _ _ Hx H1 N E) as (-> & _). exists e. split; [reflexivity|].
    exact (refines_solve _ _ _ _ _ E).
  - right. destruct (get_varassign false 100 (TVar x ix) f) as [|e'] eqn:E'; [discriminate|]. exists e'. now split.
Qed.

(** a sum of equal terms *)
Lemma loop b n : factorout_common b n (TTree Addition [tint 1; tint 1]) = Raised ERecursion.
Proof.
  induction n as [|n IH]; [reflexivity|]. cbn -[factorout_common transform]. change (factorout_common b (S n) (TTree Addition [tint 1; tint 1])) with
    (must new' <- transform (factorout_common b n) (TTree Multiplication [tint 1; TTree Addition [tint 1; tint 1]]); Got new').
  cbn [transform map_res]. destruct n as [|n]; [reflexivity|]. cbn [tint transform map_res rbind]. 
  change (factorout_common b (S n) (TNum (NInt 1))) with (Got (TNum (NInt 1))). cbn [rbind]. fold (tint 1). rewrite IH. reflexivity.
Qed.
Lemma doubled n x ix jx : get_varassign false n (TVar x ix) (TTree Addition [TVar x ix; TVar x jx]) = Raised ERecursion.
Proof.
  unfold get_varassign, solve_equation. cbn -[simplify contains teqb extract_factor].
  cbn [contains teqb]. rewrite str_eqb_refl. cbn [negb].
  cbn -[simplify]. rewrite !str_eqb_refl. cbn -[simplify]. rewrite str_eqb_refl. cbn -[simplify].
  unfold simplify. destruct n as [|n]; [reflexivity|]. cbn -[factorout_common].
  change (factorout_common false (S n) (TVar x ix)) with (Got (TVar x ix)). cbn -[factorout_common].
  change (factorout_common false (S n) (TNum (NInt 1))) with (Got (TNum (NInt 1))). cbn -[factorout_common].
  pose proof (loop false (S n)) as L. unfold tint in L. rewrite L. reflexivity.
Qed.
