(** Meaning of the expressions that the compiler puts into C++ code. *)
From Coq Require Import Ascii String ZArith Bool List QArith Qcanon.
From Coq Require Import Floats.SpecFloat.
From Verif Require Import PyBase ModelFortran ModelRecipe ModelSolve.
Import ListNotations.
Open Scope Z_scope.

(** numbers and the operations of the expressions *)
Record arith : Type := {
  car :> Type;
  a_lit : num -> car; a_add : car -> car -> car; a_mul : car -> car -> car; a_sub : car -> car -> car;
  a_neg : car -> car; a_div : car -> car -> car; a_mod : car -> car -> car
}.

Section Eval.
  Variable A : arith.
  Variable rho : str -> list idx -> A.
  Definition a_zero : A := a_lit A (NInt 0).
  Definition a_one : A := a_lit A (NInt 1).
  Fixpoint teval (t : tree) : A :=
    match t with
    | TNum v => a_lit A v
    | TVar x ix => rho x ix
    | TTree Addition ch => fold_right (a_add A) a_zero (map teval ch)
    | TTree Multiplication ch => fold_right (a_mul A) a_one (map teval ch)
    | TTree Subtraction (a :: b :: _) => a_sub A (teval a) (teval b)
    | TTree Division (a :: b :: _) => a_div A (teval a) (teval b)
    | TTree Modulo (a :: b :: _) => a_mod A (teval a) (teval b)
    | TTree Minusexpr (a :: _) => a_neg A (teval a)
    | TTree _ _ => a_zero
    end.
End Eval.

(** another value for a variable *)
Definition change {A : Type} (x : str) (y : A) (rho : str -> list idx -> A) : str -> list idx -> A :=
  fun z ix => if str_eqb z x then y else rho z ix.

(** exact numbers *)
Definition sf_rational (f : spec_float) : Qc :=
  match f with
  | S754_finite s m e => Q2Qc (inject_Z (if s then Zneg m else Zpos m) * Qpower (2 # 1) e)%Q
  | _ => Q2Qc 0%Q
  end.
Definition rationals : arith := {|
  car := Qc;
  a_lit := fun v => match v with NInt z => Q2Qc (inject_Z z) | NFlt f | NEndf f _ => sf_rational f end;
  a_add := Qcplus; a_mul := Qcmult; a_sub := Qcminus; a_neg := Qcopp; a_div := Qcdiv; a_mod := fun _ _ => Q2Qc 0%Q |}.

(** integers in C++, without overflow: the quotient is truncated *)
Definition cpp_ints : arith := {|
  car := Z;
  a_lit := fun v => match v with NInt z => z | _ => 0 end;
  a_add := Z.add; a_mul := Z.mul; a_sub := Z.sub; a_neg := Z.opp; a_div := Z.quot; a_mod := Z.rem |}.

(** the variables, operations and literals of an expression *)
Fixpoint vars_of (t : tree) : list (str * list idx) :=
  match t with
  | TNum _ => []
  | TVar x ix => [(x, ix)]
  | TTree _ ch => flat_map vars_of ch
  end.
Fixpoint uses (o : op) (t : tree) : bool :=
  match t with TTree p ch => op_eqb o p || existsb (uses o) ch | _ => false end.
Fixpoint int_literals (t : tree) : bool :=
  match t with TNum (NInt _) => true | TNum _ => false | TVar _ _ => true | TTree _ ch => forallb int_literals ch end.

(** no variable occurs with different indices *)
Definition one_indexing (t : tree) : Prop :=
  forall x ix jx, In (x, ix) (vars_of t) -> In (x, jx) (vars_of t) -> ix = jx.

(** ** The fields of a recipe, as the compiler sees them
    (compiler/code_generator_core.py 222-263, compiler/variable_management.py 66-86) *)

(** abbreviations of the section are replaced once *)
Fixpoint expand_abbreviations (ab : list (str * tree)) (t : tree) : tree :=
  match t with
  | TVar x [] => match find (fun q => str_eqb (fst q) x) ab with Some q => snd q | None => t end
  | TTree o ch => TTree o (map (expand_abbreviations ab) ch)
  | _ => t
  end.
Definition fields_of6 (f : fields6) : list tree :=
  map tree_of [f_c1 f; f_c2 f; f_l1 f; f_l2 f; f_n1 f; f_n2 f].
Fixpoint fields_of_litem (i : litem) : list tree :=
  match i with
  | LExpr e => [tree_of e]
  | LPad => []
  | LLoop _ _ _ b => fields_of_lbody b
  end
with fields_of_lbody (b : lbody) : list tree :=
  match b with LNil => [] | LCons i b => fields_of_litem i ++ fields_of_lbody b end.
(** the fields and the abbreviations after an instruction *)
Definition abbrevs := list (str * tree).
Fixpoint fields_of (ab : abbrevs) (i : instr) : list tree * abbrevs :=
  let seen l := (map (expand_abbreviations ab) l, ab) in
  match i with
  | ICont _ _ f | ITab1 _ f _ _ _ | ITab2 _ f _ => seen (fields_of6 f)
  | IList _ f b _ => seen (fields_of6 f ++ fields_of_lbody b)
  | IDir _ a b c d => seen (map tree_of [a; b; c; d])
  | IIntg _ a b c _ => seen (map tree_of [a; b; c])
  | IText _ _ | ISend | IStop => ([], ab)
  | IAbbrev x e => ([], (x, tree_of e) :: ab)
  | ISection _ _ b => (fst (fields_of_block [] b), ab)
  | IFor _ _ _ b => fields_of_block ab b
  | IIf q r b =>
      let '(l1, a1) := fields_of_branch ab q in
      let '(l2, a2) := fields_of_branches a1 r in
      let '(l3, a3) := fields_of_block a2 b in
      (l1 ++ l2 ++ l3, a3)
  end
with fields_of_block (ab : abbrevs) (b : block) : list tree * abbrevs :=
  match b with
  | BNil => ([], ab)
  | BCons i b => let '(l1, a1) := fields_of ab i in let '(l2, a2) := fields_of_block a1 b in (l1 ++ l2, a2)
  end
with fields_of_branch (ab : abbrevs) (q : branch) : list tree * abbrevs :=
  match q with Branch _ _ b => fields_of_block ab b end
with fields_of_branches (ab : abbrevs) (r : branches) : list tree * abbrevs :=
  match r with
  | RNil => ([], ab)
  | RCons q r => let '(l1, a1) := fields_of_branch ab q in let '(l2, a2) := fields_of_branches a1 r in (l1 ++ l2, a2)
  end.
Definition recipe_fields (b : block) : list tree := fst (fields_of_block [] b).

(** the compiler reports that it cannot solve the equation (code_generator_core.py 165-186) *)
Definition is_reported (e : exc) : bool := match e with EModulo | EMultiple => true | _ => false end.
