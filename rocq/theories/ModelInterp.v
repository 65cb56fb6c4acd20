(** Model of the recipe interpreter: interpreter/endf_mapping_utils.py,
    endf_mapping_core.py, endf_mappings.py, meta_control_utils.py, the process_* methods
    and run_instruction of endf_parser.py, and the calls of it in parse and write.

    Simplifications:
    - arrays are dictionaries (array_type='dict', internal_array_type='dict'); the list
      modes are not modelled here (see ModelPath.v for array_dict_to_list);
    - dictionaries are values: a dictionary object stored under two keys is not modelled;
    - check_arrays (TrackingDict) is modelled in ModelTracking.v;
    - error messages, logging and variable descriptions (comment blocks) are dropped. *)
From Coq Require Import Ascii String ZArith Bool Lia List.
From Coq Require Import Floats.SpecFloat.
From Verif Require Import PyBase PyFloat ModelFortran ModelRecords ModelNum ModelRecipe.
Import ListNotations.
Open Scope Z_scope.

(** ** Values and dictionaries *)

Inductive key : Type := KInt (z : Z) | KStr (s : str).

(** Python objects stored in a section dictionary. [VUp] is the reference to the enclosing
    dictionary stored under "__up" (meta_control_utils.py 120), [VNames] the set stored
    under "__abbrevs" (ibid. 42), [VExpr] a parse tree stored by an abbreviation. *)
Inductive val : Type :=
| VNum (n : num)
| VStr (s : str)
| VList (l : list val)
| VDict (d : list (key * val))
| VExpr (e : expr)
| VNone
| VUp
| VNames (l : list str).

Definition dict : Type := list (key * val).

Definition key_eqb (a b : key) : bool :=
  match a, b with
  | KInt x, KInt y => x =? y
  | KStr x, KStr y => str_eqb x y
  | _, _ => false
  end.

(** [d.get(k)], [d[k] = v] (a new key goes to the end), [del d[k]] *)
Fixpoint dget (k : key) (d : dict) : option val :=
  match d with
  | [] => None
  | (k', v) :: r => if key_eqb k k' then Some v else dget k r
  end.
Fixpoint dset (k : key) (v : val) (d : dict) : dict :=
  match d with
  | [] => [(k, v)]
  | (k', v') :: r => if key_eqb k k' then (k', v) :: r else (k', v') :: dset k v r
  end.
Fixpoint ddel (k : key) (d : dict) : dict :=
  match d with
  | [] => []
  | (k', v') :: r => if key_eqb k k' then r else (k', v') :: ddel k r
  end.

(** loop_vars: loop variables with their values *)
Fixpoint lget (x : str) (l : list (str * Z)) : option Z :=
  match l with
  | [] => None
  | (y, v) :: r => if str_eqb x y then Some v else lget x r
  end.
Fixpoint ldel (x : str) (l : list (str * Z)) : list (str * Z) :=
  match l with
  | [] => []
  | (y, v) :: r => if str_eqb x y then r else (y, v) :: ldel x r
  end.

(** ** Python operators on values *)

(** [a == b] for an int [b] *)
Definition val_eqZ (a : val) (z : Z) : bool :=
  match a with VNum n => num_eqb n (NInt z) | _ => false end.

(** [a == b] on numbers and lists of numbers (the values compared in records and
    conditions); anything else counts as different *)
Fixpoint list_eqb {A} (f : A -> A -> bool) (a b : list A) : bool :=
  match a, b with
  | [], [] => true
  | x :: a', y :: b' => f x y && list_eqb f a' b'
  | _, _ => false
  end.
Fixpoint val_eqb (a b : val) {struct a} : bool :=
  match a, b with
  | VNum x, VNum y => num_eqb x y
  | VStr x, VStr y => str_eqb x y
  | VList x, VList y =>
      (fix go (x y : list val) : bool :=
         match x, y with
         | [], [] => true
         | u :: x', v :: y' => val_eqb u v && go x' y'
         | _, _ => false
         end) x y
  | _, _ => false
  end.

(** an element of an operand that is a list *)
Definition as_num (v : val) : result num :=
  match v with VNum n => Ok n | _ => Err TypeError end.

(** math_utils.py 124-161. Simplification: operands other than numbers and lists of
    numbers give TypeError. *)
Definition math_op (f : num -> num -> result num) (x y : val) : result val :=
  let f' (p : val * val) :=
    do a <- as_num (fst p); do b <- as_num (snd p); do r <- f a b; Ok (VNum r) in
  match x, y with
  | VList a, VList b =>
      if Nat.eqb (length a) (length b)
      then do r <- mapM f' (combine a b); Ok (VList r) else Err ValueError
  | VList a, VNum _ => do r <- mapM (fun z => f' (z, y)) a; Ok (VList r)
  | VNum _, VList b => do r <- mapM (fun z => f' (x, z)) b; Ok (VList r)
  | VNum a, VNum b => do r <- f a b; Ok (VNum r)
  | _, _ => Err TypeError
  end.

(** math_utils.py 164-179 *)
Definition math_neg (x : val) : result val :=
  match x with
  | VNum a => do r <- n_neg a; Ok (VNum r)
  | VList l => do r <- mapM (fun z => do a <- as_num z; do b <- n_neg a; Ok (VNum b)) l;
               Ok (VList r)
  | _ => Err TypeError
  end.

(** math_utils.py 182-262; [num_div] casts to int only if both operands are ints, for
    elements of lists there is no cast *)
Definition math_add : val -> val -> result val := math_op n_add.
Definition math_sub : val -> val -> result val := math_op n_sub.
Definition math_mul : val -> val -> result val := math_op n_mul.
Definition math_div (cast_int : bool) (x y : val) : result val :=
  match x, y with
  | VNum a, VNum b => do r <- num_div cast_int a b; Ok (VNum r)
  | _, _ => math_op n_div x y
  end.
Definition math_mod : val -> val -> result val := math_op n_mod.

(** math_utils.py 301-325: all elements close *)
Fixpoint all_close (l : list (val * val)) : result bool :=
  match l with
  | [] => Ok true
  | (x, y) :: r =>
      do a <- as_num x; do b <- as_num y; do c <- math_isclose a b;
      do d <- all_close r; Ok (c && d)
  end.
Definition math_allclose (x y : val) : result bool :=
  match x, y with
  | VList a, VList b =>
      if Nat.eqb (length a) (length b) then all_close (combine a b) else Err ValueError
  | VNum a, VNum b => math_isclose a b
  | _, _ => Err TypeError
  end.

(** [int(v)] with [int(v) == v], as demanded of loop bounds, lookahead counts;
    [bad] is raised if the number is not integral. Simplification: other objects than
    numbers give TypeError. *)
Definition int_of_val (bad : exn) (v : val) : result Z :=
  do n <- as_num v;
  match n with
  | NInt z => Ok z
  | NFlt (S754_infinity _) | NEndf (S754_infinity _) _ => Err OverflowError
  | NFlt S754_nan | NEndf S754_nan _ => Err ValueError
  | NFlt f | NEndf f _ =>
      if sf_integral f then Ok (Z.quot (sf_num f) (sf_den f)) else Err bad
  end.

(** ** Scopes *)

(** An enclosing section: its dictionary (whose entry for the open section is outdated),
    and the name and indices under which the open section is stored. *)
Record frame : Type := { fr_dic : dict; fr_name : str; fr_idx : list Z }.

(** [v] stored below [d] under the keys [ks]; nothing if the path does not exist *)
Fixpoint put_path (ks : list key) (v : val) (old : val) : val :=
  match ks with
  | [] => v
  | k :: r =>
      match old with
      | VDict d => match dget k d with
                   | Some o => VDict (dset k (put_path r v o) d)
                   | None => old
                   end
      | _ => old
      end
  end.
Definition frame_keys (f : frame) : list key := KStr (fr_name f) :: map KInt (fr_idx f).

(** the enclosing dictionary as Python sees it, given the open one *)
Definition outer (f : frame) (d : dict) : dict :=
  match put_path (frame_keys f) (VDict d) (VDict (fr_dic f)) with
  | VDict d' => d'
  | _ => fr_dic f
  end.

(** What expressions are evaluated in: the open dictionary, the enclosing ones, the loop
    variables (datadic with its "__up" chain, loop_vars). *)
Record scope : Type := { sc_dic : dict; sc_up : list frame; sc_loops : list (str * Z) }.

(** endf_mapping_utils.py 44-61; KeyError for an unknown loop variable *)
Definition get_indexvalue (loops : list (str * Z)) (q : idx) : result Z :=
  match q with
  | IVar x => match lget x loops with Some i => Ok i | None => Err KeyError end
  | INum (NInt i) => Ok i
  | INum _ => Err InvalidIntegerError
  end.

(** endf_mapping_utils.py 72-81: [if idx in cur: cur = cur[idx]]. [in] on a list asks
    for an element, [cur[idx]] for the position. *)
Definition list_index (l : list val) (i : Z) : result val :=
  let n := Z.of_nat (length l) in
  let j := if i <? 0 then i + n else i in
  if (j <? 0) || (n <=? j) then Err IndexError
  else match nth_error l (Z.to_nat j) with Some v => Ok v | None => Err IndexError end.
Fixpoint array_get (cur : val) (idcs : list Z) : result val :=
  match idcs with
  | [] => Ok cur
  | i :: r =>
      match cur with
      | VDict d => match dget (KInt i) d with
                   | Some v => array_get v r
                   | None => Err UnavailableIndexError
                   end
      | VList l => if existsb (fun v => val_eqZ v i) l
                   then do v <- list_index l i; array_get v r
                   else Err UnavailableIndexError
      | _ => Err TypeError
      end
  end.

(** endf_mapping_utils.py 177-179: the innermost enclosing dictionary with this name *)
Fixpoint find_up (x : str) (d : dict) (up : list frame) : option val :=
  match dget (KStr x) d with
  | Some v => Some v
  | None => match up with
            | [] => None
            | f :: fs => find_up x (outer f d) fs
            end
  end.

(** endf_mapping_utils.py 161-194 with eval_abbrev=False *)
Definition get_raw (sc : scope) (look_up : bool) (x : str) (ix : list idx) : result val :=
  match lget x (sc_loops sc), dget (KStr x) (sc_dic sc) with
  | Some _, Some _ => Err LoopVariableError
  | Some i, None => Ok (VNum (NInt i))
  | None, _ =>
      match (if look_up then find_up x (sc_dic sc) (sc_up sc) else dget (KStr x) (sc_dic sc)) with
      | None => Err (VariableNotFoundError x)
      | Some v =>
          match ix with
          | [] => Ok v
          | _ => do idcs <- mapM (get_indexvalue (sc_loops sc)) ix; array_get v idcs
          end
      end
  end.

(** ** Expressions *)

(** result of eval_expr: constant, coefficient, unknown variable *)
Definition lin : Type := (val * val * option extvar)%type.
Definition vint (z : Z) : val := VNum (NInt z).
Definition coef0 (v : val) : bool := val_eqZ v 0.

(** the handling of a variable in eval_expr, endf_mapping_utils.py 308-333 *)
Definition missing (accept : bool) (e : exn) : bool :=
  accept && match e with VariableNotFoundError _ | UnavailableIndexError => true | _ => false end.

(** endf_mapping_utils.py 296-449. [depth] bounds the nesting of abbreviations (Python's
    recursion limit); [look_up], [cast], [accept] are look_up, cast_int, accept_missing.
    Lines 318-321: an error in an abbreviation is treated as one of the variable. *)
Fixpoint eval_expr (depth : nat) (sc : scope) (look_up cast accept : bool) (e : expr) {struct depth}
  : result lin :=
  (fix ev (e : expr) : result lin :=
     let var (x : str) (ix : list idx) : result lin :=
       let r :=
         do v <- get_raw sc look_up x ix;
         match v with
         | VExpr a => match depth with
                      | O => Err RecursionError
                      | S n => eval_expr n sc look_up cast accept a
                      end
         | _ => Ok (v, vint 0, None)
         end in
       match r with
       | Ok t => Ok t
       | Err er => if missing accept er then Ok (vint 0, vint 1, Some (x, ix)) else Err er
       end in
     match e with
     | EVar x ix => var x ix
     | EIncons x ix => var x ix
     | ENum _ v => Ok (VNum v, vint 0, None)
     | ENeg a =>
         do (c, k, u) <- ev a;
         do c' <- math_neg c; do k' <- math_neg k; Ok (c', k', u)
     | EMul a b =>
         do (c1, k1, u1) <- ev a; do (c2, k2, u2) <- ev b;
         if negb (coef0 k1) && negb (coef0 k2) then Err SeveralUnboundVariablesError
         else if coef0 k1
              then do c <- math_mul c1 c2; do k <- math_mul c1 k2; Ok (c, k, u2)
              else do c <- math_mul c1 c2; do k <- math_mul k1 c2; Ok (c, k, u1)
     | EDiv a b =>
         do (c1, k1, u1) <- ev a; do (c2, k2, u2) <- ev b;
         if negb (coef0 k2) then Err VariableInDenominatorError
         else do c <- math_div cast c1 c2; do k <- math_div cast k1 c2; Ok (c, k, u1)
     | EMod a b =>
         do (c1, k1, u1) <- ev a; do (c2, k2, u2) <- ev b;
         if negb (coef0 k1) || negb (coef0 k2) then Err SeveralUnboundVariablesError
         else do c <- math_mod c1 c2; Ok (c, vint 0, None)
     | EAdd a b =>
         do (c1, k1, u1) <- ev a; do (c2, k2, u2) <- ev b;
         if negb (coef0 k1) && negb (coef0 k2) then Err SeveralUnboundVariablesError
         else do c <- math_add c1 c2; do k <- math_add k1 k2;
              Ok (c, k, if coef0 k1 then u2 else u1)
     | ESub a b =>
         do (c1, k1, u1) <- ev a; do (c2, k2, u2) <- ev b;
         if negb (coef0 k1) && negb (coef0 k2) then Err SeveralUnboundVariablesError
         else do c <- math_sub c1 c2; do k <- math_sub k1 k2;
              Ok (c, k, if coef0 k1 then u2 else u1)
     end) e.

(** endf_mapping_utils.py 289-293 *)
Definition eval_known (depth : nat) (sc : scope) (look_up cast : bool) (e : expr) : result val :=
  do (c, _, _) <- eval_expr depth sc look_up cast false e; Ok c.

(** endf_mapping_utils.py 64-69, 161-194: get_varval with eval_abbrev=True *)
Definition get_varval (depth : nat) (sc : scope) (look_up : bool) (x : str) (ix : list idx)
  : result val :=
  do v <- get_raw sc look_up x ix;
  match v with
  | VExpr a => eval_known depth sc look_up true a
  | _ => Ok v
  end.

(** ** Parser options and state *)

(** parse_opts, endf_parser.py 297-303; [o_all] is ignore_all_mismatches, set during
    lookahead (meta_control_utils.py 434) *)
Record popts : Type := {
  o_zero : bool; o_number : bool; o_varspec : bool; o_fuzzy : bool; o_all : bool
}.

(** The parser object while it processes a section (endf_parser.py 853-885). [ps_log]
    lists the records read so far: first line and number of the line after the record
    (the record log of logging_utils.py holds the last of them). *)
Record pstate : Type := {
  ps_loops : list (str * Z);       (* loop_vars *)
  ps_look : option Z;              (* loop_vars["__lookahead"] *)
  ps_up : list frame;              (* the enclosing dictionaries *)
  ps_dic : dict;                   (* datadic *)
  ps_lines : list str;             (* lines: read from, or written so far *)
  ps_ofs : nat;                    (* ofs *)
  ps_opts : popts;                 (* parse_opts *)
  ps_log : list (nat * nat)
}.

Definition set_dic (d : dict) (s : pstate) : pstate :=
  {| ps_loops := ps_loops s; ps_look := ps_look s; ps_up := ps_up s; ps_dic := d;
     ps_lines := ps_lines s; ps_ofs := ps_ofs s; ps_opts := ps_opts s; ps_log := ps_log s |}.
Definition set_up (u : list frame) (d : dict) (s : pstate) : pstate :=
  {| ps_loops := ps_loops s; ps_look := ps_look s; ps_up := u; ps_dic := d;
     ps_lines := ps_lines s; ps_ofs := ps_ofs s; ps_opts := ps_opts s; ps_log := ps_log s |}.
Definition set_loops (l : list (str * Z)) (s : pstate) : pstate :=
  {| ps_loops := l; ps_look := ps_look s; ps_up := ps_up s; ps_dic := ps_dic s;
     ps_lines := ps_lines s; ps_ofs := ps_ofs s; ps_opts := ps_opts s; ps_log := ps_log s |}.
Definition set_look (k : option Z) (s : pstate) : pstate :=
  {| ps_loops := ps_loops s; ps_look := k; ps_up := ps_up s; ps_dic := ps_dic s;
     ps_lines := ps_lines s; ps_ofs := ps_ofs s; ps_opts := ps_opts s; ps_log := ps_log s |}.
Definition set_opts (o : popts) (s : pstate) : pstate :=
  {| ps_loops := ps_loops s; ps_look := ps_look s; ps_up := ps_up s; ps_dic := ps_dic s;
     ps_lines := ps_lines s; ps_ofs := ps_ofs s; ps_opts := o; ps_log := ps_log s |}.
Definition add_lines (ls : list str) (s : pstate) : pstate :=
  {| ps_loops := ps_loops s; ps_look := ps_look s; ps_up := ps_up s; ps_dic := ps_dic s;
     ps_lines := ps_lines s ++ ls; ps_ofs := ps_ofs s; ps_opts := ps_opts s; ps_log := ps_log s |}.
(** a record read from line [a] to line [b-1] *)
Definition advance (a b : nat) (s : pstate) : pstate :=
  {| ps_loops := ps_loops s; ps_look := ps_look s; ps_up := ps_up s; ps_dic := ps_dic s;
     ps_lines := ps_lines s; ps_ofs := b; ps_opts := ps_opts s; ps_log := ps_log s ++ [(a, b)] |}.

(** What does not change while a section is processed. *)
Record env : Type := {
  e_ro : ropts;         (* read_opts *)
  e_wo : wopts;         (* write_opts *)
  e_blank : bool;       (* zero_as_blank *)
  e_write : bool;       (* rwmode == "write" *)
  e_depth : nat         (* nesting of abbreviations Python's recursion limit allows *)
}.

(** Computations: the state is kept when an exception is raised. *)
Definition M (A : Type) : Type := pstate -> result A * pstate.
Definition ret {A} (a : A) : M A := fun s => (Ok a, s).
Definition fail {A} (e : exn) : M A := fun s => (Err e, s).
Definition mbind {A B} (m : M A) (f : A -> M B) : M B :=
  fun s => match m s with
           | (Ok a, s') => f a s'
           | (Err e, s') => (Err e, s')
           end.
Definition lift {A} (r : result A) : M A := fun s => (r, s).
Definition modify (f : pstate -> pstate) : M unit := fun s => (Ok tt, f s).
Notation "'run' x <- m ; k" := (mbind m (fun x => k))
  (at level 200, x pattern, m at level 100, k at level 200, right associativity).

Definition scope_of (s : pstate) : scope :=
  {| sc_dic := ps_dic s; sc_up := ps_up s; sc_loops := ps_loops s |}.

Section Interp.
  Variable en : env.

  (** ** Reading a record into the dictionary *)

  (** endf_mapping_utils.py 97-103. Simplification: the index values are computed before
      the nested dictionaries are created, and other containers give TypeError. *)
  Fixpoint set_indexed (idcs : list Z) (v : val) (cur : val) : result val :=
    match idcs with
    | [] => Ok v
    | i :: r =>
        match cur with
        | VDict d =>
            let sub := match dget (KInt i) d with Some o => o | None => VDict [] end in
            do sub' <- set_indexed r v sub;
            Ok (VDict (dset (KInt i) sub' d))
        | _ => Err TypeError
        end
    end.

  (** endf_mapping_utils.py 119-130, 197-204: set_varval, set_array_value *)
  Definition set_var (u : extvar) (v : val) : M unit := fun s =>
    let '(x, ix) := u in
    match ix with
    | [] => (Ok tt, set_dic (dset (KStr x) v (ps_dic s)) s)
    | _ =>
        match (do idcs <- mapM (get_indexvalue (ps_loops s)) ix;
               let cur := match dget (KStr x) (ps_dic s) with Some o => o | None => VDict [] end in
               set_indexed idcs v cur) with
        | Ok arr => (Ok tt, set_dic (dset (KStr x) arr (ps_dic s)) s)
        | Err e => (Err e, s)
        end
    end.

  (** [hasattr(v, "__len__")] and the comparison of lengths, endf_mapping_core.py 126-136 *)
  Definition val_len (v : val) : option nat :=
    match v with
    | VStr s => Some (length s)
    | VList l => Some (length l)
    | VDict d => Some (length d)
    | VNames l => Some (length l)
    | VUp => Some 0%nat
    | VNum _ | VExpr _ | VNone => None
    end.
  Definition same_size (a b : val) : bool :=
    match val_len a, val_len b with
    | None, None => true
    | Some m, Some n => Nat.eqb m n
    | _, _ => false
    end.

  (** endf_mapping_core.py 138-168: the comparison of a field with its expected value;
      [Ok tt] if the record is accepted *)
  Definition check_value (o : popts) (e : expr) (src exp : val) : result unit :=
    if negb (same_size src exp) then Err SizeMismatchError else
    do mismatch <- (if o_fuzzy o then do c <- math_allclose src exp; Ok (negb c)
                    else Ok (negb (val_eqb src exp)));
    if negb mismatch then Ok tt
    else if o_zero o && val_eqZ exp 0 then Ok tt
    else if o_number o && has_desired e then Ok tt
    else if o_varspec o && has_incons e then Ok tt
    else if o_all o then Ok tt
    else Err NumberMismatchError.

  (** endf_mapping_utils.py 275-286 with rwmode="read" *)
  Definition solve (cast : bool) (c k v : val) : result val :=
    if val_eqZ c 0 && val_eqZ k 1 then Ok v
    else do d <- math_sub v c; math_div cast d k.

  (** endf_mapping_core.py 93-183: one field; [true] if it has several unbound variables *)
  Definition map_field (src : val) (e : expr) : M bool := fun s =>
    let cast := negb (o_all (ps_opts s)) in
    match eval_expr (e_depth en) (scope_of s) false cast true e with
    | Err SeveralUnboundVariablesError => (Ok true, s)
    | Err er => (Err er, s)
    | Ok (c, k, None) =>
        if negb (coef0 k) then (Err AssertionError, s) else
        match check_value (ps_opts s) e src c with
        | Ok _ => (Ok false, s)
        | Err er => (Err er, s)
        end
    | Ok (c, k, Some u) =>
        match solve cast c k src with
        | Ok v => (run _ <- set_var u v; ret false) s
        | Err er => (Err er, s)
        end
    end.

  (** endf_mapping_core.py 81-196 *)
  Fixpoint map_fields (fs : list (val * expr)) : M bool :=
    match fs with
    | [] => ret false
    | (src, e) :: r => run a <- map_field src e; run b <- map_fields r; ret (a || b)
    end.

  (** endf_mapping_core.py 226-241: up to [n] passes *)
  Fixpoint map_tries (n : nat) (fs : list (val * expr)) : M unit :=
    match n with
    | O => fail SeveralUnboundVariablesError
    | S m => run again <- map_fields fs; if again then map_tries m fs else ret tt
    end.
  Definition map_read (fs : list (val * expr)) : M unit := map_tries 3 fs.

  (** endf_mapping_core.py 199-208 *)
  Definition map_write (es : list expr) : M (list val) := fun s =>
    (mapM (eval_known (e_depth en) (scope_of s) false false) es, s).

  (** ** Control numbers *)

  (** endf_mappings.py 30-31, endf_utils.py 58-59: the innermost dictionary with a MAT *)
  Fixpoint ctrl_dic (d : dict) (up : list frame) : dict :=
    match dget (KStr $"MAT") d with
    | Some _ => d
    | None => match up with
              | [] => d
              | f :: fs => ctrl_dic (outer f d) fs
              end
    end.

  Definition spec_ok (sp : option Z) (v : val) : bool :=
    match sp with None => true | Some z => val_eqZ v z end.

  (** endf_mappings.py 26-52 on three values *)
  Definition check_spec (cs : ctrlspec) (mat mf mt : val) : result unit :=
    if spec_ok (cs_mat cs) mat && spec_ok (cs_mf cs) mf && spec_ok (cs_mt cs) mt
    then Ok tt else Err UnexpectedControlRecordError.
  Definition check_spec_read (cs : ctrlspec) (c : ctrl) : M unit :=
    lift (check_spec cs (vint (MAT c)) (vint (MF c)) (vint (MT c))).
  Definition check_spec_write (cs : ctrlspec) : M unit := fun s =>
    let d := ctrl_dic (ps_dic s) (ps_up s) in
    (match dget (KStr $"MAT") d, dget (KStr $"MF") d, dget (KStr $"MT") d with
     | Some a, Some b, Some c => check_spec cs a b c
     | None, _, _ => Err (VariableNotFoundError $"MAT")
     | _, None, _ => Err (VariableNotFoundError $"MF")
     | _, _, None => Err (VariableNotFoundError $"MT")
     end, s).

  (** an int where text is produced from [str(v)]. Simplification: TypeError for other
      objects, of which Python would print some text. *)
  Definition as_Z (v : val) : result Z :=
    match v with VNum (NInt z) => Ok z | _ => Err TypeError end.
  Definition as_Zs (v : val) : result (list Z) :=
    match v with VList l => mapM as_Z l | _ => Err TypeError end.
  Definition as_nums (v : val) : result (list num) :=
    match v with VList l => mapM as_num l | _ => Err TypeError end.

  (** endf_utils.py 57-68 *)
  Definition get_ctrl (d : dict) (up : list frame) : result ctrl :=
    let d := ctrl_dic d up in
    match dget (KStr $"MAT") d, dget (KStr $"MF") d, dget (KStr $"MT") d with
    | Some a, Some b, Some c =>
        do mat <- as_Z a; do mf <- as_Z b; do mt <- as_Z c;
        Ok {| MAT := mat; MF := mf; MT := mt |}
    | _, _, _ => Err KeyError
    end.

  (** [self.datadic.update(get_ctrl(record))], endf_parser.py 466, 513 *)
  Definition update_ctrl (c : ctrl) : M unit :=
    modify (fun s => set_dic (dset (KStr $"MT") (vint (MT c))
                               (dset (KStr $"MF") (vint (MF c))
                                 (dset (KStr $"MAT") (vint (MAT c)) (ps_dic s)))) s).

  (** ** Sections *)

  (** meta_control_utils.py 67-124: the dictionary below [cur] under [ks] and [cur] with
      the missing dictionaries created *)
  Fixpoint open_path (create : bool) (name : str) (ks : list key) (cur : val) : result (dict * val) :=
    match ks with
    | [] => match cur with VDict d => Ok (d, cur) | _ => Err TypeError end
    | k :: r =>
        match cur with
        | VDict d =>
            match dget k d with
            | Some o => do (inner, o') <- open_path create name r o; Ok (inner, VDict (dset k o' d))
            | None =>
                if create
                then do (inner, o') <- open_path create name r (VDict []);
                     Ok (inner, VDict (dset k o' d))
                else Err (MissingSectionError name)
            end
        | _ => Err TypeError
        end
    end.

  (** the same, including the "__up" entry. Simplification: if an index is missing, the
      name in MissingSectionError is the one without indices. *)
  Definition open_section (u : extvar) : M unit := fun s =>
    let '(x, ix) := u in
    match (do idcs <- mapM (get_indexvalue (ps_loops s)) ix;
           do (inner, cur) <- open_path (negb (e_write en)) x (KStr x :: map KInt idcs) (VDict (ps_dic s));
           match cur with
           | VDict d => Ok (idcs, inner, d)
           | _ => Err TypeError
           end) with
    | Ok (idcs, inner, d) =>
        (Ok tt, set_up ({| fr_dic := d; fr_name := x; fr_idx := idcs |} :: ps_up s)
                       (dset (KStr $"__up") VUp inner) s)
    | Err e => (Err e, s)
    end.

  (** meta_control_utils.py 127-133 *)
  Definition close_section : M unit := fun s =>
    match ps_up s with
    | f :: fs => (Ok tt, set_up fs (outer f (ddel (KStr $"__up") (ps_dic s))) s)
    | [] => (Err KeyError, s)
    end.

  (** a table or list section, endf_mappings.py 192-221: optional name *)
  Definition in_section {A} (name : option extvar) (m : M A) : M A :=
    match name with
    | None => m
    | Some u => run _ <- open_section u; run a <- m; run _ <- close_section; ret a
    end.

  (** meta_control_utils.py 41-43 *)
  Definition init_working (d : dict) : dict :=
    dset (KStr $"__startidcs") (VDict []) (dset (KStr $"__abbrevs") (VNames []) d).

  (** meta_control_utils.py 46-56 *)
  Definition introduce (x : str) (e : expr) : M unit := fun s =>
    let d := ps_dic s in
    let names := match dget (KStr $"__abbrevs") d with Some (VNames l) => l | _ => [] end in
    let known := existsb (str_eqb x) names in
    match dget (KStr x) d with
    | Some _ => if known then (Ok tt, set_dic (dset (KStr x) (VExpr e) d) s)
                else (Err AbbreviationNameCollisionError, s)
    | None =>
        let names' := if known then names else names ++ [x] in
        (Ok tt, set_dic (dset (KStr x) (VExpr e) (dset (KStr $"__abbrevs") (VNames names') d)) s)
    end.

  (** meta_control_utils.py 59-64 *)
  Fixpoint del_names (l : list str) (d : dict) : result dict :=
    match l with
    | [] => Ok d
    | x :: r => match dget (KStr x) d with
                | Some _ => del_names r (ddel (KStr x) d)
                | None => Err KeyError
                end
    end.
  Definition remove_working : M unit := fun s =>
    match dget (KStr $"__abbrevs") (ps_dic s) with
    | Some (VNames l) =>
        match del_names l (ps_dic s) with
        | Ok d => (Ok tt, set_dic (ddel (KStr $"__startidcs") (ddel (KStr $"__abbrevs") d)) s)
        | Err e => (Err e, s)
        end
    | _ => (Err AssertionError, s)
    end.

  (** ** Loops and conditions *)

  (** [range(a, b + 1)] *)
  Definition zrange (a b : Z) : list Z :=
    map (fun k => a + Z.of_nat k) (seq 0 (Z.to_nat (b + 1 - a))).

  (** evaluation in control position: look_up=True, cast_int=True *)
  Definition eval_ctl (e : expr) : M val := fun s =>
    (eval_known (e_depth en) (scope_of s) true true e, s).

  (** [for i in range(...): loop_vars[v] = i; body] *)
  Fixpoint iterate (v : str) (is_ : list Z) (body : M unit) : M unit :=
    match is_ with
    | [] => ret tt
    | i :: r =>
        run _ <- modify (fun s => set_loops ((v, i) :: ldel v (ps_loops s)) s);
        run _ <- body;
        iterate v r body
    end.

  (** meta_control_utils.py 136-186 *)
  Definition cycle_for_loop (v : str) (start stop : expr) (body : M unit) : M unit :=
    run a <- eval_ctl start;
    run b <- eval_ctl stop;
    run a <- lift (int_of_val LoopVariableError a);
    run b <- lift (int_of_val LoopVariableError b);
    fun s =>
      match lget v (ps_loops s) with
      | Some _ => (Err LoopVariableError, s)
      | None =>
          (run _ <- iterate v (zrange a b) body;
           if a <=? b then modify (fun s => set_loops (ldel v (ps_loops s)) s) else ret tt) s
      end.

  (** the relation of two values; ordering is defined on numbers *)
  Definition val_cmp (r : rel) (a b : val) : result bool :=
    match r with
    | REq => Ok (val_eqb a b)
    | RNe => Ok (negb (val_eqb a b))
    | RLt => do x <- as_num a; do y <- as_num b; Ok (num_ltb x y)
    | RGt => do x <- as_num a; do y <- as_num b; Ok (num_ltb y x)
    | RLe => do x <- as_num a; do y <- as_num b; Ok (num_leb x y)
    | RGe => do x <- as_num a; do y <- as_num b; Ok (num_leb y x)
    end.

  (** meta_control_utils.py 189-225 with missing_as_false=True *)
  Definition eval_relation (sc : scope) (r : rel) (a b : expr) : result bool :=
    match (do x <- eval_known (e_depth en) sc true true a;
           do y <- eval_known (e_depth en) sc true true b; Ok (x, y)) with
    | Err (VariableNotFoundError _) => Ok false
    | Err e => Err e
    | Ok (x, y) => val_cmp r x y
    end.

  (** meta_control_utils.py 228-292 *)
  Fixpoint truthvalue (sc : scope) (c : cond) : result bool :=
    match c with
    | CRel r a b => eval_relation sc r a b
    | CAnd a b => do x <- truthvalue sc a; if x then truthvalue sc b else Ok false
    | COr a b => do x <- truthvalue sc a; if x then Ok true else truthvalue sc b
    end.

  (** ** Lookahead *)

  (** meta_control_utils.py 389-395; [true] for an "endf_action" *)
  Definition should_proceed (action : bool) : M bool := fun s =>
    match ps_look s with
    | None => (Ok true, s)
    | Some n => if n =? 0 then (Ok false, s)
                else (Ok true, if action then set_look (Some (n - 1)) s else s)
    end.

  (** the dictionary [n] levels below the outermost one *)
  Fixpoint unwind (n : nat) (up : list frame) (d : dict) : list frame * dict :=
    if Nat.leb (length up) n then (up, d) else
    match up with
    | [] => (up, d)
    | f :: fs => unwind n fs (outer f d)
    end.

  Definition all_ignored (o : popts) : popts :=
    {| o_zero := o_zero o; o_number := o_number o; o_varspec := o_varspec o;
       o_fuzzy := o_fuzzy o; o_all := true |}.

  (** meta_control_utils.py 346-386, 398-455: the truth value of an if or elif head *)
  Definition if_statement (c : cond) (la : option expr) (body : M unit) : M bool :=
    match la with
    | Some k =>
        if e_write en then fun s => (truthvalue (scope_of s) c, s) else
        run v <- eval_ctl k;
        run n <- lift (int_of_val ValueError v);
        fun orig =>
          match ps_look orig with
          | Some _ => (Err ValueError, orig)
          | None =>
              let s1 := set_look (Some n) (set_opts (all_ignored (ps_opts orig)) orig) in
              match body s1 with
              | (Ok _, s2) | (Err UnexpectedControlRecordError, s2) =>
                  let s3 := set_look None s2 in
                  let '(up, d) := unwind (length (ps_up orig)) (ps_up s3) (ps_dic s3) in
                  match truthvalue {| sc_dic := d; sc_up := up; sc_loops := ps_loops s3 |} c with
                  | Ok b => (Ok b, orig)
                  | Err e => (Err e, s3)
                  end
              | (Err e, s2) => (Err e, s2)
              end
          end
    | None => fun s => (truthvalue (scope_of s) c, s)
    end.

  (** ** Records *)

  (** the beginning of every process_*_line in read mode: skip blank lines, read *)
  Definition read_with {A} (rd : list str -> nat -> result (A * nat)) : M A := fun s =>
    match skip_blank_lines (ps_lines s) (ps_ofs s) with
    | Err e => (Err e, s)
    | Ok o => match rd (ps_lines s) o with
              | Err e => (Err e, s)
              | Ok (a, o') => (Ok a, advance o o' s)
              end
    end.
  Definition write_with (r : pstate -> result (list str)) : M unit := fun s =>
    match r s with
    | Ok ls => (Ok tt, add_lines ls s)
    | Err e => (Err e, s)
    end.

  Definition vn (n : num) : val := VNum n.
  Definition the_ctrl (s : pstate) : result ctrl := get_ctrl (ps_dic s) (ps_up s).

  (** six values as a record *)
  Definition cont_of (vs : list val) : result contrec :=
    match vs with
    | [a; b; c; d; e; f] =>
        do a <- as_num a; do b <- as_num b; do c <- as_num c; do d <- as_num d;
        do e <- as_num e; do f <- as_num f;
        Ok {| C1 := a; C2 := b; L1 := c; L2 := d; N1 := e; N2 := f |}
    | _ => Err KeyError
    end.
  Definition fields_list (f : fields6) : list expr := [f_c1 f; f_c2 f; f_l1 f; f_l2 f; f_n1 f; f_n2 f].
  Definition cont_vals (r : contrec) : list val := [vn (C1 r); vn (C2 r); vn (L1 r); vn (L2 r); vn (N1 r); vn (N2 r)].

  (** endf_parser.py 490-576; endf_mappings.py 79-116 *)
  Definition do_cont (head : bool) (cs : ctrlspec) (f : fields6) : M unit :=
    if e_write en then
      run _ <- check_spec_write cs;
      run vs <- map_write (fields_list f);
      write_with (fun s => do c <- the_ctrl s; do r <- cont_of vs; write_cont (e_wo en) r c)
    else
      run (r, c) <- read_with (read_cont (e_ro en));
      run _ <- check_spec_read cs c;
      run _ <- map_read (combine (cont_vals r) (fields_list f));
      if head then update_ctrl c else ret tt.

  (** endf_mapping_core.py 258-280 *)
  Fixpoint text_read (fs : list textfield) (full : str) (pos : nat) : M unit :=
    match fs with
    | [] => ret tt
    | (u, len) :: r =>
        let upper := match len with Some n => (pos + n)%nat | None => length full end in
        if Nat.leb upper pos then fail SizeMismatchError else
        run _ <- match u with
                 | Some x => set_var x (VStr (slice pos upper full))
                 | None => ret tt
                 end;
        text_read r full upper
    end.

  (** endf_mapping_core.py 281-305 *)
  Definition text_piece (sc : scope) (f : textfield) : result str :=
    match f with
    | (Some (x, ix), len) =>
        do v <- get_varval (e_depth en) sc true x ix;
        match v with
        | VStr t => match len with
                    | Some n => if Nat.eqb (length t) n then Ok t else Err SizeMismatchError
                    | None => Ok t
                    end
        | _ => Err TypeError
        end
    | (None, Some n) => Ok (spaces n)
    | (None, None) => Err IndexError
    end.
  Definition text_write (sc : scope) (fs : list textfield) : result str :=
    do ps <- mapM (text_piece sc) fs; Ok (concat ps).

  (** endf_parser.py 443-483; endf_mappings.py 55-76 *)
  Definition do_text (cs : ctrlspec) (f : list textfield) : M unit :=
    if e_write en then
      run _ <- check_spec_write cs;
      run t <- (fun s => (text_write (scope_of s) f, s));
      write_with (fun s => do c <- the_ctrl s; Ok (write_text (e_wo en) t c))
    else
      run (t, c) <- read_with (read_text (e_ro en));
      run _ <- check_spec_read cs c;
      run _ <- text_read f t 0;
      update_ctrl c.

  (** endf_parser.py 578-610; endf_mappings.py 119-136 *)
  Definition do_dir (cs : ctrlspec) (es : list expr) : M unit :=
    if e_write en then
      run _ <- check_spec_write cs;
      run vs <- map_write es;
      write_with (fun s =>
        do c <- the_ctrl s;
        do zs <- mapM as_Z vs;
        match zs with
        | [a; b; c'; d] => Ok (write_dir (e_wo en) {| D_L1 := a; D_L2 := b; D_N1 := c'; D_N2 := d |} c)
        | _ => Err KeyError
        end)
    else
      run (r, c) <- read_with (read_dir (e_ro en));
      run _ <- check_spec_read cs c;
      map_read (combine [vint (D_L1 r); vint (D_L2 r); vint (D_N1 r); vint (D_N2 r)] es).

  (** endf_parser.py 612-655; endf_mappings.py 139-156. [ndigit] must be an int. *)
  Definition do_intg (cs : ctrlspec) (ii jj kij nd : expr) : M unit :=
    if e_write en then
      run _ <- check_spec_write cs;
      run vs <- map_write [ii; jj; kij];
      run c <- (fun s => (the_ctrl s, s));
      run n <- eval_ctl nd;
      write_with (fun s =>
        do n <- as_Z n;
        match vs with
        | [a; b; k] => do a <- as_Z a; do b <- as_Z b; do k <- as_Zs k;
                       Ok (write_intg (e_wo en) n {| G_II := a; G_JJ := b; G_KIJ := k |} c)
        | _ => Err KeyError
        end)
    else
      run _ <- (fun s => match skip_blank_lines (ps_lines s) (ps_ofs s) with
                         | Ok _ => (Ok tt, s) | Err e => (Err e, s) end);
      run n <- eval_ctl nd;
      run n <- lift (as_Z n);
      run (r, c) <- read_with (read_intg (e_ro en) n);
      run _ <- check_spec_read cs c;
      map_read (combine [vint (G_II r); vint (G_JJ r); VList (map vint (G_KIJ r))] [ii; jj; kij]).

  (** the variables NBT and INT of a table, endf_mappings.py 203, 268 *)
  Definition tab_vars : list expr := [EVar $"NBT" []; EVar $"INT" []].
  Definition ev (u : extvar) : expr := EVar (fst u) (snd u).

  (** what follows in TAB1, TAB2 and LIST only if the lookahead count allows it,
      endf_mappings.py 184-185, 248-249, 396-400; [dflt] otherwise (only in read mode) *)
  Definition if_proceed {A} (dflt : A) (m : M A) : M A :=
    run p <- should_proceed true; if p then m else ret dflt.

  (** endf_parser.py 657-690; endf_mappings.py 225-288 *)
  Definition do_tab1 (cs : ctrlspec) (f : fields6) (x y : extvar) (name : option extvar) : M unit :=
    let es := [f_c1 f; f_c2 f; f_l1 f; f_l2 f] in
    let ts := tab_vars ++ [ev x; ev y] in
    if e_write en then
      run _ <- check_spec_write cs;
      run vs <- map_write es;
      run tv <- in_section name (map_write ts);
      write_with (fun s =>
        do c <- the_ctrl s;
        match tv with
        | [n; i; xs; ys] =>
            do n <- as_Zs n; do i <- as_Zs i; do xs <- as_nums xs; do ys <- as_nums ys;
            do r <- cont_of (vs ++ [vint 0; vint 0]);
            write_tab1 (e_wo en) r c n i xs ys
        | _ => Err KeyError
        end)
    else
      run (r, c, tbl) <- read_with (read_tab1 (e_ro en));
      run _ <- check_spec_read cs c;
      run _ <- map_read (combine (cont_vals r) es);
      if_proceed tt
        (let '(n, i, xs, ys) := tbl in
         in_section name
           (map_read (combine [VList (map vn n); VList (map vn i); VList (map vn xs); VList (map vn ys)] ts))).

  (** endf_parser.py 692-719; endf_mappings.py 159-222. The field N1 is skipped. *)
  Definition do_tab2 (cs : ctrlspec) (f : fields6) (name : option extvar) : M unit :=
    let es := [f_c1 f; f_c2 f; f_l1 f; f_l2 f; f_n2 f] in
    if e_write en then
      run _ <- check_spec_write cs;
      run vs <- map_write es;
      run tv <- in_section name (map_write tab_vars);
      write_with (fun s =>
        do c <- the_ctrl s;
        match tv, vs with
        | [n; i], [c1; c2; l1; l2; n2] =>
            do n <- as_Zs n; do i <- as_Zs i;
            do r <- cont_of [c1; c2; l1; l2; vint 0; n2];
            write_tab2 (e_wo en) r c n i
        | _, _ => Err KeyError
        end)
    else
      run (r, c, tbl) <- read_with (read_tab2 (e_ro en));
      run _ <- check_spec_read cs c;
      run _ <- map_read (combine [vn (C1 r); vn (C2 r); vn (L1 r); vn (L2 r); vn (N2 r)] es);
      if_proceed tt
        (in_section name
           (map_read (combine [VList (map vn (fst tbl)); VList (map vn (snd tbl))] tab_vars))).

  (** The body of a LIST record, endf_mappings.py 310-386. In read mode [vals] are the
      values and [pos] is val_idx; in write mode values are appended to [vals]. *)
  Definition lstate : Type := (list num * nat)%type.
  Definition pad6 (pos : nat) : nat := (6 - pos mod 6) mod 6.

  (** [cycle_for_loop] threading the position through the loop *)
  Definition LM : Type := lstate -> M lstate.

  Definition list_expr (e : expr) : LM := fun ls =>
    let '(vals, pos) := ls in
    if e_write en then
      run vs <- map_write [e];
      match vs with
      | [v] => run n <- lift (as_num v); ret (vals ++ [n], S pos)
      | _ => fail KeyError
      end
    else
      match nth_error vals pos with
      | None => fail MoreListElementsExpectedError
      | Some n => run _ <- map_read [(vn n, e)]; ret (vals, S pos)
      end.
  Definition list_pad : LM := fun ls =>
    let '(vals, pos) := ls in
    let n := pad6 pos in
    ret (if e_write en then vals ++ repeat (NFlt (S754_zero false)) n else vals, (pos + n)%nat).

  Fixpoint iterate_l (v : str) (is_ : list Z) (body : LM) : LM := fun ls =>
    match is_ with
    | [] => ret ls
    | i :: r =>
        run _ <- modify (fun s => set_loops ((v, i) :: ldel v (ps_loops s)) s);
        run ls' <- body ls;
        iterate_l v r body ls'
    end.
  Definition cycle_list_loop (v : str) (start stop : expr) (body : LM) : LM := fun ls =>
    run a <- eval_ctl start;
    run b <- eval_ctl stop;
    run a <- lift (int_of_val LoopVariableError a);
    run b <- lift (int_of_val LoopVariableError b);
    fun s =>
      match lget v (ps_loops s) with
      | Some _ => (Err LoopVariableError, s)
      | None =>
          (run r <- iterate_l v (zrange a b) body ls;
           run _ <- (if a <=? b then modify (fun s => set_loops (ldel v (ps_loops s)) s) else ret tt);
           ret r) s
      end.

  Fixpoint list_item (i : litem) : LM :=
    match i with
    | LExpr e => list_expr e
    | LPad => list_pad
    | LLoop v a b body => cycle_list_loop v a b (list_body body)
    end
  with list_body (b : lbody) : LM :=
    match b with
    | LNil => fun ls => ret ls
    | LCons i r => fun ls => run ls' <- list_item i ls; list_body r ls'
    end.

  (** endf_parser.py 721-750; endf_mappings.py 291-437 *)
  Definition do_list (cs : ctrlspec) (f : fields6) (body : lbody) (name : option extvar) : M unit :=
    if e_write en then
      run _ <- check_spec_write cs;
      run vs <- map_write (fields_list f);
      run (vals, _) <- in_section name (list_body body ([], O));
      write_with (fun s => do c <- the_ctrl s; do r <- cont_of vs; write_list (e_wo en) r c vals)
    else
      run (r, c, vals) <- read_with (read_list (e_ro en));
      run _ <- check_spec_read cs c;
      run _ <- map_read (combine (cont_vals r) (fields_list f));
      if_proceed tt
        (run (_, pos) <- in_section name (list_body body (vals, O));
         if Nat.ltb pos (length vals) then fail UnconsumedListElementsError else ret tt).

  (** endf_parser.py 752-771; the position is not advanced *)
  Definition do_send : M unit :=
    if e_write en then
      write_with (fun s => do c <- the_ctrl s; write_send (e_wo en) (e_blank en) c)
    else fun s =>
      match skip_blank_lines (ps_lines s) (ps_ofs s) with
      | Err e => (Err e, s)
      | Ok o => match read_send (e_ro en) (ps_lines s) o with
                | Err e => (Err e, s)
                | Ok (_, _, o') =>
                    let s' := advance o o' s in
                    (Ok tt, {| ps_loops := ps_loops s'; ps_look := ps_look s'; ps_up := ps_up s';
                               ps_dic := ps_dic s'; ps_lines := ps_lines s'; ps_ofs := o;
                               ps_opts := ps_opts s'; ps_log := ps_log s' |})
                end
      end.

  (** ** Instructions *)

  (** endf_parser.py 440-445; in read mode the current line is accessed *)
  Definition do_stop : M unit := fun s =>
    if e_write en then (Err StopException, s)
    else match get_line (ps_lines s) (ps_ofs s) with
         | Ok _ => (Err StopException, s)
         | Err e => (Err e, s)
         end.

  (** endf_parser.py 836-851: an instruction is executed if the lookahead count allows it *)
  Definition guarded (action : bool) (m : M unit) : M unit :=
    run p <- should_proceed action; if p then m else ret tt.

  (** endf_parser.py 434-851: process_* and run_instruction *)
  Fixpoint exec (i : instr) : M unit :=
    match i with
    | ICont head cs f => guarded true (do_cont head cs f)
    | IText cs f => guarded true (do_text cs f)
    | IDir cs l1 l2 n1 n2 => guarded true (do_dir cs [l1; l2; n1; n2])
    | IIntg cs ii jj kij nd => guarded true (do_intg cs ii jj kij nd)
    | ITab1 cs f x y name => guarded true (do_tab1 cs f x y name)
    | ITab2 cs f name => guarded true (do_tab2 cs f name)
    | IList cs f body name => guarded true (do_list cs f body name)
    | ISend => guarded true do_send
    | IStop => guarded true do_stop
    | ISection head tail body =>
        guarded false
          (if negb (str_eqb (fst head) (fst tail)) then fail InconsistentSectionBracketsError else
           run _ <- open_section head;
           run _ <- modify (fun s => set_dic (init_working (ps_dic s)) s);
           run _ <- exec_block body;
           run _ <- remove_working;
           close_section)
    | IFor v a b body => guarded false (cycle_for_loop v a b (exec_block body))
    | IIf first more els =>
        guarded false
          (run t <- test_branch first;
           if t then exec_branch first
           else exec_branches more (exec_block els))
    | IAbbrev x e => guarded false (introduce x e)
    end
  with exec_block (b : block) : M unit :=
    match b with
    | BNil => ret tt
    | BCons i r =>
        run p <- should_proceed false;
        if p then run _ <- exec i; exec_block r else ret tt
    end
  with test_branch (b : branch) : M bool :=
    match b with Branch c la body => if_statement c la (exec_block body) end
  with exec_branch (b : branch) : M unit :=
    match b with Branch _ _ body => exec_block body end
  with exec_branches (r : branches) (els : M unit) : M unit :=
    match r with
    | RNil => els
    | RCons b r' => run t <- test_branch b; if t then exec_branch b else exec_branches r' els
    end.
End Interp.

(** ** A section *)

(** endf_parser.py 853-862 *)
Definition reset_state (o : popts) (lines : list str) (d : dict) : pstate :=
  {| ps_loops := []; ps_look := None; ps_up := []; ps_dic := d; ps_lines := lines;
     ps_ofs := 0; ps_opts := o; ps_log := [] |}.

(** endf_parser.py 853-862, 968-970 and 1031-1034: initialize, run the recipe, clean up *)
Definition run_section (en : env) (recipe : block) : M unit :=
  run _ <- modify (fun s => set_dic (init_working (ps_dic s)) s);
  run _ <- exec_block en recipe;
  remove_working.

Definition read_env (ro : ropts) (wo : wopts) (depth : nat) : env :=
  {| e_ro := ro; e_wo := wo; e_blank := false; e_write := false; e_depth := depth |}.
Definition write_env (ro : ropts) (wo : wopts) (zero_as_blank : bool) (depth : nat) : env :=
  {| e_ro := ro; e_wo := wo; e_blank := zero_as_blank; e_write := true; e_depth := depth |}.

(** endf_parser.py 966-972 (array_type='dict'): the dictionary of a section and the
    parse_opts with which the parser object goes on *)
Definition parse_recipe (en : env) (recipe : block) (o : popts) (lines : list str)
  : result dict * popts :=
  match run_section en recipe (reset_state o lines []) with
  | (Ok _, s) => (Ok (ps_dic s), ps_opts s)
  | (Err e, s) => (Err e, ps_opts s)
  end.

(** [datadic.setdefault(k, z)] and the comparison, endf_parser.py 1025-1034 *)
Definition set_ctrl_default (k : str) (z : Z) (d : dict) : dict * bool :=
  match dget (KStr k) d with
  | Some v => (d, val_eqZ v z)
  | None => (dset (KStr k) (vint z) d, true)
  end.

(** endf_parser.py 1019-1069 with check_arrays=False. [explain] is
    explain_missing_variable; without it lines 1062-1064 use unassigned variables
    (UnboundLocalError, a NameError). Result: the lines and the control numbers, and the
    user's dictionary afterwards. *)
Definition write_recipe (en : env) (explain : bool) (recipe : block) (o : popts) (mf mt : Z) (d : dict)
  : result (list str * ctrl) * dict :=
  let '(d1, ok1) := set_ctrl_default $"MF" mf d in
  if negb ok1 then (Err UnexpectedControlRecordError, d1) else
  let '(d2, ok2) := set_ctrl_default $"MT" mt d1 in
  if negb ok2 then (Err UnexpectedControlRecordError, d2) else
  let '(r, s) := run_section en recipe (reset_state o [] d2) in
  let '(_, dfinal) := unwind 0 (ps_up s) (ps_dic s) in
  match r with
  | Ok _ => (do c <- get_ctrl (ps_dic s) (ps_up s); Ok (ps_lines s, c), dfinal)
  | Err e =>
      (Err match e with
           | VariableNotFoundError _ | MissingSectionError _ => if explain then e else NameError
           | _ => e
           end, dfinal)
  end.
