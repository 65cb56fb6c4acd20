(** C51: the expressions that the compiler derives for the variables of the fields. *)
From Coq Require Import Ascii String ZArith QArith Qcanon Bool Lia List.
From Verif Require Import PyBase ModelFortran ModelRecipe ModelInterp ModelRecipes ModelSolve SpecInterp SpecInterpEx SpecSolve ProofPyBase ProofSolve ProofSolve2.
Import ListNotations.
Open Scope Z_scope.

(** The number read for a field is [cpp_val]. The compiler assigns to the variable [x] of the
    field the value of an expression [e]. If the solver does not stop at the step that goes
    wrong (see [C51_wrong_refuted]), then [e] does not depend on [x], and for any values of the
    other variables with which the field depends on [x], the value of [e] is the one and only
    value of [x] with which the field is equal to the number read. Exact arithmetic. Missing for
    the full property: fields with which the solver goes wrong, fields with the modulo operator,
    several indices of the same variable. *)
Theorem C51_solution_partial : forall n lhs x ix l e,
  In (x, ix) (vars_of lhs) -> one_indexing lhs -> ~ In $"cpp_val" (map fst (vars_of lhs)) ->
  get_varassign true n (TVar x ix) lhs = Got (l, e) ->
  get_varassign false n (TVar x ix) lhs = Got (TVar x ix, e) /\
  (forall z jx, In (z, jx) (vars_of e) -> z <> x /\ In (z, jx) (($"cpp_val", []) :: vars_of lhs)) /\
  forall rho, (exists y y', teval rationals (change x y rho) lhs <> teval rationals (change x y' rho) lhs) ->
  forall y, teval rationals (change x y rho) lhs = rho $"cpp_val" [] <-> y = teval rationals rho e.
Proof.
  intros n lhs x ix l e Hx O N H.
  destruct (solution rationals rationals_ring rationals_div rationals_add rationals_mul _ _ _ _ _ _ Hx O N H) as (-> & V & _).
  split; [exact (refines_solve _ _ _ _ _ H)|]. split; [exact V|]. exact (solved_rational _ _ _ _ _ _ Hx O N H).
Qed.
Print Assumptions C51_solution_partial.

(** The integers of C++: if the field has no division, and its value for some value of [x] is
    the number read, then this value is assigned, although quotients are truncated. *)
Theorem C51_integers_partial : forall n lhs x ix l e,
  In (x, ix) (vars_of lhs) -> one_indexing lhs -> ~ In $"cpp_val" (map fst (vars_of lhs)) ->
  uses Division lhs = false ->
  get_varassign true n (TVar x ix) lhs = Got (l, e) ->
  forall rho y, teval cpp_ints (change x y rho) lhs = rho $"cpp_val" [] ->
  (exists y', teval cpp_ints (change x y' rho) lhs <> teval cpp_ints (change x y rho) lhs) ->
  teval cpp_ints rho e = y.
Proof. exact solved_integer. Qed.
Print Assumptions C51_integers_partial.

(** It is the value that the reader written in Python assigns (C23). *)
Theorem C51_same_as_python_partial : forall en e u z s s' v n l e' rho,
  o_all (ps_opts s) = false ->
  unknown_in (seen (scope_of s)) u e -> (forall w, ~ seen (scope_of s) (fst u) (snd u) w) ->
  exact_range (seen (scope_of s)) u e z ->
  map_field en (vint z) e s = (Ok false, s') ->
  seen (scope_of s') (fst u) (snd u) v ->
  (forall x ix, In (x, ix) (vars_of (tree_of e)) -> seen (scope_of s') x ix (vint (rho x ix))) ->
  In u (vars_of (tree_of e)) -> one_indexing (tree_of e) ->
  ~ In $"cpp_val" (map fst (vars_of (tree_of e))) -> rho $"cpp_val" [] = z ->
  (exists y y', teval cpp_ints (change (fst u) y rho) (tree_of e) <> teval cpp_ints (change (fst u) y' rho) (tree_of e)) ->
  get_varassign true n (TVar (fst u) (snd u)) (tree_of e) = Got (l, e') ->
  v = vint (teval cpp_ints rho e').
Proof. exact same_as_reader. Qed.
Print Assumptions C51_same_as_python_partial.

(** NSIGZ + NUNR*(1+5*NSIGZ), from the recipe for MF2/MT152, solved for NSIGZ *)
Notation "a +: b" := (TTree Addition [a; b]) (at level 50, left associativity).
Notation "a *: b" := (TTree Multiplication [a; b]) (at level 40, left associativity).
Definition var (x : string) : tree := TVar (list_ascii_of_string x) [].
Definition ex_field : tree := var "NSIGZ" +: var "NUNR" *: (tint 1 +: tint 5 *: var "NSIGZ").
Definition ex_solution : tree :=
  TTree Division [var "cpp_val" +: var "NUNR" *: tint (-1); var "NUNR" *: tint 5 +: tint 1].
Definition ex_rho (x : str) (_ : list idx) : Z := if str_eqb x $"NUNR" then 3 else if str_eqb x $"cpp_val" then 67 else 0.
Example C51_example :
  In ($"NSIGZ", []) (vars_of ex_field) /\ one_indexing ex_field /\ ~ In $"cpp_val" (map fst (vars_of ex_field)) /\
  uses Division ex_field = false /\
  get_varassign true 10 (var "NSIGZ") ex_field = Got (var "NSIGZ", ex_solution) /\
  teval cpp_ints (change $"NSIGZ" 4 ex_rho) ex_field = 67 /\ teval cpp_ints (change $"NSIGZ" 5 ex_rho) ex_field <> 67 /\
  teval cpp_ints ex_rho ex_solution = 4.
Proof.
  split; [now left|]. split.
  { intros x ix jx H K. cbn in H, K. repeat match goal with H : _ \/ _ |- _ => destruct H | H : False |- _ => destruct H end; congruence. }
  split; [cbn; intros [H|[H|[H|[]]]]; discriminate H|]. split; [reflexivity|]. split; [vm_compute; reflexivity|]. split; [reflexivity|]. split; [discriminate|reflexivity].
Qed.

(** 2*N with N unknown: the state of the reader *)
Example C51_same_as_python_example : exists s s',
  unknown_in (seen (scope_of s)) ($"N", []) (EMul (ei 2) (ev0 "N")) /\ (forall w, ~ seen (scope_of s) $"N" [] w) /\
  map_field ex_renv (vint 10) (EMul (ei 2) (ev0 "N")) s = (Ok false, s') /\ seen (scope_of s') $"N" [] (vint 5) /\
  get_varassign true 10 (var "N") (tree_of (EMul (ei 2) (ev0 "N"))) = Got (var "N", TTree Division [var "cpp_val"; tint 2]).
Proof.
  exists (ex_state [] [] []). eexists. split.
  { apply ui_mul; [apply ui_num|]. apply ui_unknown; [left; reflexivity|]. intros v. vm_compute. discriminate. }
  split. { intros w. vm_compute. discriminate. }
  split. { vm_compute. reflexivity. } split; vm_compute; reflexivity.
Qed.

(** ** The recipes of the package *)

(** Every field of every recipe, for each of its variables: either the solver does not go
    wrong, or the compiler reports that it cannot solve the equation. *)
Theorem C51_recipes : forall name b f x ix,
  In (name, b) all_recipes -> In f (recipe_fields b) -> In (x, ix) (vars_of f) ->
  one_indexing f /\ ~ In $"cpp_val" (map fst (vars_of f)) /\
  ((exists e, get_varassign true 100 (TVar x ix) f = Got (TVar x ix, e) /\ get_varassign false 100 (TVar x ix) f = Got (TVar x ix, e)) \/
   (exists e, is_reported e = true /\ get_varassign false 100 (TVar x ix) f = Raised e)).
Proof. exact recipes_solved. Qed.
Print Assumptions C51_recipes.

(** ** Where the solver fails *)

(** x + a + a*b: the assigned value is v - a*(a+b). A product that has only the factor that is
    taken out keeps this factor (expr_utils/node_trafos.py 207-210). *)
Theorem C51_wrong_refuted : exists lhs e rho y,
  get_varassign false 100 (var "x") lhs = Got (var "x", e) /\
  teval cpp_ints (change $"x" y rho) lhs = rho $"cpp_val" [] /\
  (forall y', teval cpp_ints (change $"x" y' rho) lhs = rho $"cpp_val" [] -> y' = y) /\
  teval cpp_ints rho e <> y.
Proof.
  exists (var "x" +: var "a" +: var "a" *: var "b"), (TTree Multiplication [var "a"; var "a" +: var "b"; tint (-1)] +: var "cpp_val"),
    (fun x _ => if str_eqb x $"a" then 2 else if str_eqb x $"b" then 3 else 9), 1.
  split; [vm_compute; reflexivity|]. split; [reflexivity|]. split; [|discriminate].
  intros y' H. cbn in H. lia.
Qed.
Print Assumptions C51_wrong_refuted.

(** The sum of two equal terms, also of two elements of an array: the compiler recurses
    without end, whatever the recursion limit [n]. *)
Theorem C51_recursion_refuted : forall n x ix jx,
  get_varassign false n (TVar x ix) (TTree Addition [TVar x ix; TVar x jx]) = Raised ERecursion.
Proof. exact doubled. Qed.
Print Assumptions C51_recursion_refuted.

(** x + 1 - 1: the expression contains a sum without terms, which is no C++. *)
Theorem C51_empty_refuted :
  get_varassign false 100 (var "x") (TTree Subtraction [var "x" +: tint 1; tint 1])
  = Got (var "x", TTree Addition [] *: tint (-1) +: var "cpp_val").
Proof. vm_compute. reflexivity. Qed.
Print Assumptions C51_empty_refuted.

(** The recipe for MF32 has the field 1+(NCH-1)/6: with the integers of C++ the expression for
    NCH divides by 1/6, that is, by zero. *)
Theorem C51_mf32_refuted : exists f R K,
  In f (recipe_fields mf32) /\ f = tint 1 +: TTree Division [TTree Subtraction [var "NCH"; tint 1]; tint 6] /\
  get_varassign false 100 (var "NCH") f = Got (var "NCH", TTree Division [R; K]) /\
  forall rho, teval cpp_ints rho K = 0.
Proof.
  exists (tint 1 +: TTree Division [TTree Subtraction [var "NCH"; tint 1]; tint 6]),
    ((TTree Division [tint 1; tint 6] *: tint (-1) +: tint 1) *: tint (-1) +: var "cpp_val"),
    (TTree Division [tint 1; tint 6]).
  split; [|split; [reflexivity|split; [vm_compute; reflexivity|reflexivity]]].
  assert (X : existsb (fun g => match g with
                               | TTree Addition [TNum (NInt 1); TTree Division [TTree Subtraction [TVar n []; TNum (NInt 1)]; TNum (NInt 6)]] => str_eqb n $"NCH"
                               | _ => false end) (recipe_fields mf32) = true) by (vm_compute; reflexivity).
  apply existsb_exists in X as (g & Hg & X). 
  repeat match type of X with match ?t with _ => _ end = true => destruct t; try discriminate X end.
  apply str_eqb_eq in X. subst. exact Hg.
Qed.
Print Assumptions C51_mf32_refuted.

(** The recipe for MF12 has the field 2*NT: an odd number in the file is accepted by the
    compiled reader, with NT rounded; the reader in Python reports it. *)
Theorem C51_truncated_refuted : exists f e rho s,
  In f (recipe_fields mf12) /\ f = tree_of (EMul (ei 2) (ev0 "NT")) /\
  get_varassign false 100 (var "NT") f = Got (var "NT", e) /\
  teval cpp_ints (change $"NT" (teval cpp_ints rho e) rho) f <> rho $"cpp_val" [] /\
  (exists x, map_field ex_renv (vint (rho $"cpp_val" [])) (EMul (ei 2) (ev0 "NT")) s = (Err x, s)).
Proof.
  exists (tree_of (EMul (ei 2) (ev0 "NT"))), (TTree Division [var "cpp_val"; tint 2]), (fun _ _ => 7), (ex_state [] [] []).
  split. { vm_compute. tauto. } split; [reflexivity|]. split; [vm_compute; reflexivity|]. split; [discriminate|].
  eexists. vm_compute. reflexivity.
Qed.
Print Assumptions C51_truncated_refuted.
