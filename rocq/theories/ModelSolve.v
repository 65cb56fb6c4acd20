(** The equation solver of the compiler: endf_parserpy/compiler/expr_utils. It produces, for a
    field of a record, the C++ expression that is assigned to the variable of the field. *)
From Coq Require Import Ascii String ZArith Bool List.
From Coq Require Import Floats.SpecFloat.
From Verif Require Import PyBase ModelFortran ModelRecipe.
Import ListNotations.
Open Scope Z_scope.

(** ** Trees *)

(** names of the inner nodes of an expression (lark Tree.data) *)
Inductive op : Type := Addition | Subtraction | Multiplication | Division | Modulo | Minusexpr.

(** custom_nodes.py 16-65, node_checks.py 45-52: a NUMBER token, a VARIABLE token with its
    indices, an inner node. Simplification: a NUMBER is given by its value, not its text. *)
Inductive tree : Type :=
| TNum (v : num)
| TVar (x : str) (ix : list idx)
| TTree (o : op) (ch : list tree).

Definition op_eqb (a b : op) : bool :=
  match a, b with
  | Addition, Addition | Subtraction, Subtraction | Multiplication, Multiplication
  | Division, Division | Modulo, Modulo | Minusexpr, Minusexpr => true
  | _, _ => false
  end.
Definition sf_same (a b : spec_float) : bool :=
  match a, b with
  | S754_zero s, S754_zero t | S754_infinity s, S754_infinity t => Bool.eqb s t
  | S754_nan, S754_nan => true
  | S754_finite s m e, S754_finite t n f => Bool.eqb s t && Pos.eqb m n && (e =? f)
  | _, _ => false
  end.
Definition lit_eqb (a b : num) : bool :=
  match a, b with
  | NInt x, NInt y => x =? y
  | NFlt x, NFlt y => sf_same x y
  | _, _ => false
  end.

(** [a == b]: lark compares the data and children of trees, the type and text of tokens. The
    text of a VARIABLE token is the name without the indices (custom_nodes.py 55-57). *)
Fixpoint teqb (a b : tree) : bool :=
  match a, b with
  | TNum x, TNum y => lit_eqb x y
  | TVar x _, TVar y _ => str_eqb x y
  | TTree o ch, TTree p ch' => op_eqb o p &&
      (fix all (l m : list tree) : bool :=
         match l, m with
         | [], [] => true
         | c :: l', d :: m' => teqb c d && all l' m'
         | _, _ => false
         end) ch ch'
  | _, _ => false
  end.
(** equality of keys in a dict: also the hashes are equal (custom_nodes.py 63-64: the number of
    indices enters the hash). Simplification: other hashes do not collide. *)
Fixpoint keyeqb (a b : tree) : bool :=
  match a, b with
  | TNum x, TNum y => lit_eqb x y
  | TVar x ix, TVar y jx => str_eqb x y && Nat.eqb (length ix) (length jx)
  | TTree o ch, TTree p ch' => op_eqb o p &&
      (fix all (l m : list tree) : bool :=
         match l, m with
         | [], [] => true
         | c :: l', d :: m' => keyeqb c d && all l' m'
         | _, _ => false
         end) ch ch'
  | _, _ => false
  end.

Definition is_op (o : op) (t : tree) : bool := match t with TTree p _ => op_eqb o p | _ => false end.
Definition tint (z : Z) : tree := TNum (NInt z).

(** exceptions: ModuloEquationError, MultipleVariableOccurrenceError, VariableMissingError,
    TypeError, IndexError, ValueError, RecursionError; [ESingle] is explained below *)
Inductive exc : Type := EModulo | EMultiple | EMissing | EType | EIndex | EValue | ERecursion | ESingle.
Inductive res (A : Type) : Type := Got (a : A) | Raised (e : exc).
Arguments Got {A} a.
Arguments Raised {A} e.
Definition rbind {A B} (r : res A) (f : A -> res B) : res B := match r with Got a => f a | Raised e => Raised e end.
Notation "'must' x <- r ; k" := (rbind r (fun x => k)) (at level 200, x pattern, r at level 100, k at level 200, right associativity).
Section Map.
  Context {A B : Type} (f : A -> res B).
  Fixpoint map_res (l : list A) : res (list B) :=
    match l with
    | [] => Got []
    | x :: r => must y <- f x; must ys <- map_res r; Got (y :: ys)
    end.
End Map.

(** tree_walkers.py 15-27: children first. None of the functions used returns None. *)
Fixpoint transform (f : tree -> res tree) (t : tree) : res tree :=
  match t with
  | TTree o ch => must ch' <- map_res (transform f) ch; f (TTree o ch')
  | _ => f t
  end.
(** the same for functions that raise no exception *)
Fixpoint walk (f : tree -> tree) (t : tree) : tree :=
  match t with
  | TTree o ch => f (TTree o (map (walk f) ch))
  | _ => f t
  end.

(** ** node_trafos.py *)

(** node_trafos.py 46-51 *)
Definition eliminate_subtraction (t : tree) : tree :=
  match t with
  | TTree Subtraction (a :: b :: _) => TTree Addition [a; TTree Minusexpr [b]]
  | _ => t
  end.
(** 54-61 *)
Definition eliminate_minusexpr (t : tree) : tree :=
  match t with
  | TTree Minusexpr (a :: _) => TTree Multiplication [tint (-1); a]
  | _ => t
  end.
(** 64-73 *)
Definition factorout_division (t : tree) : tree :=
  match t with
  | TTree Division (a :: b :: _) => TTree Multiplication [a; TTree Division [tint 1; b]]
  | _ => t
  end.
(** 76-99: flatten_multiplication, flatten_addition *)
Definition flat_children (o : op) (ch : list tree) : list tree :=
  flat_map (fun c => match c with TTree p ds => if op_eqb o p then ds else [c] | _ => [c] end) ch.
Definition flatten (o : op) (t : tree) : tree :=
  match t with
  | TTree p ch => if op_eqb o p then TTree o (flat_children o ch) else t
  | _ => t
  end.

(** [int(node.value)] succeeds *)
Definition int_lit (t : tree) : option Z := match t with TNum (NInt z) => Some z | _ => None end.
Definition int_lits (ch : list tree) : list Z := flat_map (fun c => match int_lit c with Some z => [z] | None => [] end) ch.
Definition non_ints (ch : list tree) : list tree := filter (fun c => match int_lit c with Some _ => false | None => true end) ch.
(** 112-130 *)
Definition evaluate_int_multiplication (ch : list tree) : tree :=
  let p := fold_left Z.mul (int_lits ch) 1 in
  let fs := non_ints ch in
  let fs' := if negb (p =? 1) || match fs with [] => true | _ => false end then fs ++ [tint p] else fs in
  match fs' with [t] => t | _ => TTree Multiplication fs' end.
(** 133-151 *)
Definition evaluate_int_addition (ch : list tree) : tree :=
  let p := fold_left Z.add (int_lits ch) 0 in
  let fs := non_ints ch in
  let fs' := if p =? 0 then fs else fs ++ [tint p] in
  match fs' with [t] => t | _ => TTree Addition fs' end.
(** 154-160 *)
Definition evaluate_int_ops (t : tree) : tree :=
  match t with
  | TTree Addition ch => evaluate_int_addition ch
  | TTree Multiplication ch => evaluate_int_multiplication ch
  | _ => t
  end.

(** 163-178 *)
Definition expand_two (a b : tree) : tree :=
  match a, b with
  | TTree Addition l, TTree Addition m =>
      TTree Addition (flat_map (fun t1 => map (fun t2 => TTree Multiplication [t1; t2]) m) l)
  | TTree Addition l, _ => TTree Addition (map (fun t => TTree Multiplication [b; t]) l)
  | _, TTree Addition m => TTree Addition (map (fun t => TTree Multiplication [a; t]) m)
  | _, _ => TTree Multiplication [a; b]
  end.
(** 181-189. Simplification: IndexError for a product without factors. *)
Definition expand_product (t : tree) : res tree :=
  match t with
  | TTree Multiplication ch =>
      match ch with
      | [] => Raised EIndex
      | c :: r => Got (walk (flatten Multiplication) (fold_left expand_two r c))
      end
  | _ => Got t
  end.

Section Solver.
  (** [false] in the code. With [true] the solver stops where line 210 puts a factor other than 1 back. *)
  Variable strict : bool.

  (** the children without the first that equals [f] *)
  Fixpoint remove_first (f : tree) (l : list tree) : option (list tree) :=
    match l with
    | [] => None
    | c :: r => if teqb c f then Some r
                else match remove_first f r with Some r' => Some (c :: r') | None => None end
    end.
  (** 192-211 *)
  Definition remove_factor (t f : tree) : res tree :=
    match t with
    | TTree Multiplication ch =>
        match remove_first f ch with
        | None => Raised EType
        | Some [] => if strict && negb (teqb f (tint 1)) then Raised ESingle else Got (TTree Multiplication [f])
        | Some l => Got (TTree Multiplication l)
        end
    | _ => if teqb f t then Got (tint 1) else Raised EType
    end.
  (** 214-229 *)
  Definition extract_factor (t f : tree) : res tree :=
    must terms <- match t with
                | TTree Addition ch => Got ch
                | TTree Multiplication _ => Got [t]
                | _ => Raised EType
                end;
    must new <- map_res (fun u => remove_factor u f) terms;
    Got (TTree Multiplication [f; match new with [u] => u | _ => TTree Addition new end]).

  (** dictionaries whose keys are nodes *)
  Fixpoint kmem (t : tree) (l : list tree) : bool :=
    match l with [] => false | c :: r => keyeqb t c || kmem t r end.
  (** 232-244: the different terms in order, each with its different factors in order *)
  Definition factors (t : tree) : list tree := match t with TTree Multiplication ch => ch | _ => [t] end.
  Fixpoint distinct (seen l : list tree) : list tree :=
    match l with
    | [] => []
    | c :: r => if kmem c seen then distinct seen r else c :: distinct (seen ++ [c]) r
    end.
  Definition term_factors (terms : list tree) : list (list tree) :=
    map (fun t => distinct [] (factors t)) (distinct [] terms).
  (** 247-254 *)
  Fixpoint count_in (f : tree) (counts : list (tree * nat)) : list (tree * nat) :=
    match counts with
    | [] => [(f, 1%nat)]
    | (g, n) :: r => if keyeqb f g then (g, S n) :: r else (g, n) :: count_in f r
    end.
  Definition factor_counts (terms : list tree) : list (tree * nat) :=
    fold_left (fun c f => count_in f c) (concat (term_factors terms)) [].
  (** 257-262: the first of the factors that are in the most terms *)
  Definition most_common (terms : list tree) : res tree :=
    let counts := factor_counts terms in
    let m := fold_left Nat.max (map snd counts) 0%nat in
    match filter (fun q => Nat.eqb (snd q) m) counts with
    | [] => Raised EValue
    | q :: _ => Got (fst q)
    end.

  (** node_checks.py 53-56 *)
  Definition has_factor (f t : tree) : bool :=
    match t with TTree Multiplication ch => existsb (fun c => teqb c f) ch | _ => teqb t f end.

  (** 265-299; [n] bounds the recursion (Python's recursion limit) *)
  Fixpoint factorout_common (n : nat) (t : tree) : res tree :=
    match n with
    | O => Raised ERecursion
    | S n' =>
        match t with
        | TTree Addition [c] => Got c
        | TTree Addition ch =>
            must f <- most_common ch;
            let terms1 := filter (has_factor f) ch in
            let terms2 := filter (fun c => negb (has_factor f c)) ch in
            if Nat.leb (length terms1) 1 then Got t else
            must new <- extract_factor (TTree Addition terms1) f;
            must new' <- transform (factorout_common n') new;
            match terms2 with
            | [] => Got new'
            | [c] => Got (TTree Addition [new'; c])
            | _ => must other <- factorout_common n' (TTree Addition terms2);
                   Got (TTree Addition [new'; other])
            end
        | _ => Got t
        end
    end.

  (** ** tree_trafos.py *)

  (** tree_trafos.py 33-41 *)
  Definition normalize (t : tree) : res tree :=
    let t := walk eliminate_subtraction t in
    let t := walk eliminate_minusexpr t in
    let t := walk factorout_division t in
    let t := walk (flatten Multiplication) t in
    let t := walk (flatten Addition) t in
    must t <- transform expand_product t;
    Got (walk (flatten Addition) t).
  (** 44-49 *)
  Definition simplify (n : nat) (t : tree) : res tree :=
    must t <- transform (factorout_common n) t;
    let t := walk (flatten Multiplication) t in
    let t := walk (flatten Addition) t in
    Got (walk evaluate_int_ops t).

  (** ** equation_utils.py *)

  (** equation_utils.py 39-48 without skip_nodes and filters *)
  Fixpoint contains (v t : tree) : bool :=
    match t with
    | TTree _ ch => existsb (contains v) ch
    | _ => teqb t v
    end.
  Fixpoint has_modulo (t : tree) : bool :=
    match t with TTree o ch => op_eqb o Modulo || existsb has_modulo ch | _ => false end.

  (** 62-82 *)
  Definition move_constants (lhs rhs v : tree) : tree * tree :=
    match lhs with
    | TTree Addition ch =>
        let mine := filter (contains v) ch in
        let others := filter (fun c => negb (contains v c)) ch in
        let rhs := fold_left (fun r c => TTree Subtraction [r; c]) others rhs in
        let rhs := walk eliminate_subtraction rhs in
        let rhs := walk eliminate_minusexpr rhs in
        let rhs := walk (flatten Multiplication) rhs in
        let rhs := walk (flatten Addition) rhs in
        (match mine with [] => tint 0 | [t] => t | _ => TTree Addition mine end, rhs)
    | _ => (lhs, rhs)
    end.
  (** 85-108 *)
  Definition move_factor (lhs rhs v : tree) : res (tree * tree) :=
    match lhs with
    | TTree Multiplication ch =>
        match filter (contains v) ch with
        | [x] => Got (x, TTree Division [rhs; TTree Multiplication (filter (fun c => negb (contains v c)) ch)])
        | _ => Raised EMultiple
        end
    | _ => if teqb lhs v then Got (lhs, rhs) else Raised EMissing
    end.
  (** 111-124 *)
  Definition solve_equation (n : nat) (lhs rhs v : tree) : res (tree * tree) :=
    if has_modulo lhs || has_modulo rhs then Raised EModulo else
    must lhs <- normalize lhs;
    must rhs <- normalize rhs;
    let '(lhs, rhs) := move_constants lhs rhs v in
    must lhs <- (if teqb lhs v then Got lhs else extract_factor lhs v);
    must (lhs, rhs) <- move_factor lhs rhs v;
    must lhs <- simplify n lhs;
    must rhs <- simplify n rhs;
    Got (lhs, rhs).

  (** 127-135: the field is equal to the number that is read *)
  Definition cpp_val : tree := TVar $"cpp_val" [].
  Definition get_varassign (n : nat) (v node : tree) : res (tree * tree) := solve_equation n node cpp_val v.
End Solver.

(** ** Expressions of recipes *)

(** conversion.py 21-63: the tree of an expression *)
Fixpoint tree_of (e : expr) : tree :=
  match e with
  | EVar x ix | EIncons x ix => TVar x ix
  | ENum _ v => TNum v
  | ENeg a => TTree Minusexpr [tree_of a]
  | EAdd a b => TTree Addition [tree_of a; tree_of b]
  | ESub a b => TTree Subtraction [tree_of a; tree_of b]
  | EMul a b => TTree Multiplication [tree_of a; tree_of b]
  | EDiv a b => TTree Division [tree_of a; tree_of b]
  | EMod a b => TTree Modulo [tree_of a; tree_of b]
  end.
