(** Model of the evaluation of queries (utils/matching.py), used by the command "match".

    Simplifications:
    - a query is modelled by its parse tree; the grammar (65-98) and the parser are not modelled;
    - a generator is the list of the items it yields and the exception that ends it, if any;
    - a truth value None (160) is modelled by false: it is only negated, combined and tested;
    - printing is not modelled. *)
From Coq Require Import Ascii String ZArith Bool List.
From Verif Require Import PyBase ModelFortran ModelNum ModelRecipe ModelInterp ModelPath.
Import ListNotations.
Open Scope Z_scope.

Definition gen (A : Type) : Type := (list A * option exn)%type.
(** [yield from a], then [b] *)
Definition gapp {A : Type} (a : gen A) (b : gen A) : gen A :=
  match snd a with
  | Some _ => a
  | None => (fst a ++ fst b, snd b)
  end.
(** [for x in a: yield from f(x)] *)
Fixpoint gfor {A B : Type} (l : list A) (f : A -> gen B) : gen B :=
  match l with
  | [] => ([], None)
  | x :: r => gapp (f x) (gfor r f)
  end.
Definition gbind {A B : Type} (a : gen A) (f : A -> gen B) : gen B :=
  gapp (gfor (fst a) f) ([], snd a).

Definition star : key := KStr $"*".
(** 33-36 [endf_path.index(EndfPath("*"))] and the slices 39 and 59 *)
Fixpoint cut_star (p : list key) : option (list key * list key) :=
  match p with
  | [] => None
  | k :: r => if key_eqb k star then Some ([], r)
              else match cut_star r with Some (a, b) => Some (k :: a, b) | None => None end
  end.
(** 45-56: the keys of a dictionary or the indices of a list *)
Definition keys_of (v : val) : option (list key) :=
  match v with
  | VDict d => Some (map fst d)
  | VList l => Some (map (fun i => KInt (Z.of_nat i)) (seq 0 (length l)))
  | _ => None
  end.
(** [EndfPath(k)] *)
Definition key_as_path (k : key) : result (list key) :=
  match k with KInt z => path_of (PInt z) | KStr s => path_of (PStr s) end.

(** 31-64. [fuel] is the depth of the recursion; every level removes a star unless the data have
    the key "*". Line 60 assigns the loop variable [new_lead_path] again. *)
Fixpoint path_gen (fuel : nat) (p : list key) (d : val) (lead : list key) : gen (list key) :=
  match cut_star p with
  | None => match path_add lead p with Ok q => ([q], None) | Err e => ([], Some e) end
  | Some (pre, rest) =>
      match path_lookup pre d with
      | Err KeyError | Err ValueError | Err TypeError => ([], None)
      | Err e => ([], Some e)
      | Ok cur =>
          match keys_of cur with
          | None => ([], None)
          | Some ks =>
              match fuel with
              | O => ([], Some RecursionError)
              | S fuel =>
                  (fix go (ks : list key) (new_lead : list key) : gen (list key) :=
                     match ks with
                     | [] => ([], None)
                     | k :: ks =>
                         match (do kp <- key_as_path k; do t <- path_add kp rest;
                                do nl <- path_add lead new_lead; Ok (t, nl)) with
                         | Err e => ([], Some e)
                         | Ok (t, nl) => gapp (path_gen fuel t cur nl) (go ks nl)
                         end
                     end) ks pre
              end
          end
      end
  end.
Definition stars (p : list key) : nat := length (filter (fun k => key_eqb k star) p).
Definition endf_path_generator (p : list key) (d : val) : gen (list key) := path_gen (stars p) p d [].

(** parse trees, 65-98 *)
Inductive qexpr : Type := QNum (x : num) | QPath (p : list key).
Inductive query : Type :=
| QOr (a b : query) | QAnd (a b : query) | QNot (a : query)
| QRel (r : rel) (a b : qexpr)
| QPrefix (p : list key) (a : query)
| QExists (p : list key).

(** 121-127 and 106-114: false unless both are numbers *)
Definition relation (r : rel) (x y : num) : bool :=
  let x := plain x in let y := plain y in
  match r with
  | REq => num_eqb x y
  | RNe => negb (num_eqb x y)
  | RLt => num_ltb x y
  | RGt => num_ltb y x
  | RLe => num_leb x y
  | RGe => num_leb y x
  end.
Definition robust_relation (r : rel) (x y : val) : bool :=
  match x, y with VNum x, VNum y => relation r x y | _, _ => false end.

(** 150-158 and 129. None for a path that does not exist. *)
Definition eval_endfpath (p : list key) (d : val) : gen val :=
  gbind (endf_path_generator p d) (fun q =>
    match path_lookup q d with
    | Ok v => ([v], None)
    | Err KeyError | Err IndexError | Err TypeError => ([VNone], None)
    | Err e => ([], Some e)
    end).
Definition eval_expr (e : qexpr) (d : val) : gen val :=
  match e with QNum x => ([VNum x], None) | QPath p => eval_endfpath p d end.

(** 188: [product(a, b)] evaluates both generators completely *)
Definition product {A B C : Type} (f : A -> B -> C) (a : gen A) (b : gen B) : gen C :=
  match snd a, snd b with
  | Some e, _ => ([], Some e)
  | None, Some e => ([], Some e)
  | None, None => (flat_map (fun x => map (f x) (fst b)) (fst a), None)
  end.

(** 141-194 *)
Fixpoint eval_tree (q : query) (d : val) : gen bool :=
  match q with
  | QOr a b => product orb (eval_tree a d) (eval_tree b d)
  | QAnd a b => product andb (eval_tree a d) (eval_tree b d)
  | QNot a => match eval_tree a d with
              | (l, None) => (map negb l, None)
              | (_, Some e) => ([], Some e)
              end
  | QRel r a b => product (robust_relation r) (eval_expr a d) (eval_expr b d)
  | QPrefix p a =>
      gbind (endf_path_generator p d) (fun q =>
        match path_lookup q d with
        | Ok d' => eval_tree a d'
        | Err _ => ([false], None)
        end)
  | QExists p => gbind (endf_path_generator p d) (fun q => ([path_exists q d], None))
  end.

(** 200-206: the first true value ends the evaluation *)
Definition eval_tree_print (q : query) (d : val) : result bool :=
  let g := eval_tree q d in
  if existsb (fun b => b) (fst g) then Ok true
  else match snd g with Some e => Err e | None => Ok false end.
