(** Specification of the recipe language, independent of the interpreter. *)
From Coq Require Import Ascii String ZArith QArith Bool Lia List.
From Coq Require Import Floats.SpecFloat.
From Verif Require Import PyBase PyFloat ModelFortran ModelRecords ModelNum ModelRecipe ModelInterp.
Import ListNotations.
Open Scope Z_scope.

(** ** C30: records cover lines *)

(** no SEND instruction anywhere *)
Fixpoint no_send (i : instr) : bool :=
  match i with
  | ISend => false
  | ISection _ _ b => no_send_block b
  | IFor _ _ _ b => no_send_block b
  | IIf first more els => no_send_branch first && no_send_branches more && no_send_block els
  | _ => true
  end
with no_send_block (b : block) : bool :=
  match b with BNil => true | BCons i r => no_send i && no_send_block r end
with no_send_branch (b : branch) : bool :=
  match b with Branch _ _ body => no_send_block body end
with no_send_branches (r : branches) : bool :=
  match r with RNil => true | RCons b r' => no_send_branch b && no_send_branches r' end.

(** no lookahead option anywhere *)
Fixpoint no_look (i : instr) : bool :=
  match i with
  | ISection _ _ b => no_look_block b
  | IFor _ _ _ b => no_look_block b
  | IIf first more els => no_look_branch first && no_look_branches more && no_look_block els
  | _ => true
  end
with no_look_block (b : block) : bool :=
  match b with BNil => true | BCons i r => no_look i && no_look_block r end
with no_look_branch (b : branch) : bool :=
  match b with Branch _ (Some _) _ => false | Branch _ None body => no_look_block body end
with no_look_branches (r : branches) : bool :=
  match r with RNil => true | RCons b r' => no_look_branch b && no_look_branches r' end.

(** the recipe [b] followed by SEND *)
Fixpoint then_send (b : block) : block :=
  match b with
  | BNil => BCons ISend BNil
  | BCons i r => BCons i (then_send r)
  end.

(** [recs] are consecutive non-empty line ranges from line [a] to line [b], with nothing
    but blank lines between them *)
Inductive tiles (lines : list str) : nat -> list (nat * nat) -> nat -> Prop :=
| tiles_nil a : tiles lines a [] a
| tiles_cons a x y recs b :
    (a <= x)%nat -> (forall i l, (a <= i < x)%nat -> nth_error lines i = Some l -> is_blank l = true) ->
    (x < y <= length lines)%nat ->
    tiles lines y recs b -> tiles lines a ((x, y) :: recs) b.

(** how many of the ranges contain line [i] *)
Definition times_read (recs : list (nat * nat)) (i : nat) : nat :=
  length (filter (fun r => (fst r <=? i)%nat && (i <? snd r)%nat) recs).

(** ** C26: loops *)

(** the number [n] is the integer [z] *)
Definition is_int (n : num) (z : Z) : Prop :=
  match n with
  | NInt x => x = z
  | NFlt f | NEndf f _ =>
      match f with
      | SpecFloat.S754_zero _ => z = 0
      | SpecFloat.S754_finite s m e => sf_num f = z * sf_den f
      | _ => False
      end
  end.

(** the expression [e] has the integer value [z] in the given state *)
Definition has_int (en : env) (s : pstate) (e : expr) (z : Z) : Prop :=
  exists n, eval_known (e_depth en) (scope_of s) true true e = Ok (VNum n) /\ is_int n z.

(** [s0] is [s] except that the loop variable [v] has the value [i] *)
Definition loop_at (v : str) (i : Z) (s s0 : pstate) : Prop :=
  s0 = set_loops (ps_loops s0) s /\ lget v (ps_loops s0) = Some i /\
  forall x, x <> v -> lget x (ps_loops s0) = lget x (ps_loops s).

(** the body executed for i=a, a+1, ..., b, up to the first error *)
Inductive iterates (v : str) (body : pstate -> result unit * pstate) (b : Z) :
  Z -> pstate -> result unit -> pstate -> Prop :=
| it_done a s : b < a -> iterates v body b a s (Ok tt) s
| it_next a s s0 s1 r s' : a <= b -> loop_at v a s s0 -> body s0 = (Ok tt, s1) ->
    iterates v body b (a + 1) s1 r s' -> iterates v body b a s r s'
| it_fail a s s0 e s1 : a <= b -> loop_at v a s s0 -> body s0 = (Err e, s1) ->
    iterates v body b a s (Err e) s1.

(** ** C27: conditions *)

Definition numQ (n : num) : Q := match n with NInt z => inject_Z z | NFlt f | NEndf f _ => sfQ f end.
Definition rel_num (r : rel) (x y : num) : Prop :=
  if num_finite x && num_finite y then
    match r with
    | REq => numQ x == numQ y | RNe => ~ numQ x == numQ y
    | RLt => numQ x < numQ y | RGt => numQ y < numQ x
    | RLe => numQ x <= numQ y | RGe => numQ y <= numQ x
    end%Q
  else                             (* infinities and nan *)
    match num_cmp x y with
    | None => r = RNe              (* nan differs from everything *)
    | Some c =>
        match r with
        | REq => c = Eq | RNe => c <> Eq
        | RLt => c = Lt | RGt => c = Gt
        | RLe => c <> Gt | RGe => c <> Lt
        end
    end.
(** numbers are compared by value; other values can be compared for equality *)
Definition rel_val (r : rel) (x y : val) : Prop :=
  match x, y with
  | VNum a, VNum b => rel_num r a b
  | _, _ => match r with
            | REq => val_eqb x y = true
            | RNe => val_eqb x y = false
            | _ => False
            end
  end.

(** the value of an expression; undefined if one of its variables is *)
Definition value (en : env) (sc : scope) (e : expr) (v : val) : Prop :=
  eval_known (e_depth en) sc true true e = Ok v.

Fixpoint cond_holds (en : env) (sc : scope) (c : cond) : Prop :=
  match c with
  | CRel r a b => exists x y, value en sc a x /\ value en sc b y /\ rel_val r x y
  | CAnd a b => cond_holds en sc a /\ cond_holds en sc b
  | COr a b => cond_holds en sc a \/ cond_holds en sc b
  end.

(** evaluating a condition raises [e]: an expression in it does, for another reason than
    an undefined variable, or things without an order are compared *)
Definition expr_raises (en : env) (sc : scope) (a : expr) (e : exn) : Prop :=
  eval_known (e_depth en) sc true true a = Err e /\ forall x, e <> VariableNotFoundError x.
Inductive cond_raises (en : env) (sc : scope) : cond -> exn -> Prop :=
| cr_left r a b e : expr_raises en sc a e -> cond_raises en sc (CRel r a b) e
| cr_right r a b x e : value en sc a x -> expr_raises en sc b e -> cond_raises en sc (CRel r a b) e
| cr_type r a b x y : value en sc a x -> value en sc b y -> r <> REq -> r <> RNe ->
    (forall m n, x = VNum m -> y = VNum n -> False) -> cond_raises en sc (CRel r a b) TypeError
| cr_and1 a b e : cond_raises en sc a e -> cond_raises en sc (CAnd a b) e
| cr_and2 a b e : cond_holds en sc a -> cond_raises en sc b e -> cond_raises en sc (CAnd a b) e
| cr_or1 a b e : cond_raises en sc a e -> cond_raises en sc (COr a b) e
| cr_or2 a b e : ~ cond_holds en sc a -> cond_raises en sc b e -> cond_raises en sc (COr a b) e.

(** the block an if/elif/else clause selects: the first one whose condition holds *)
Inductive selects (en : env) (sc : scope) : list (cond * block) -> block -> block -> Prop :=
| sel_else els : selects en sc [] els els
| sel_here c b r els : cond_holds en sc c -> selects en sc ((c, b) :: r) els b
| sel_later c b r els b' : ~ cond_holds en sc c -> selects en sc r els b' -> selects en sc ((c, b) :: r) els b'.

(** the search for this block is ended by an exception *)
Inductive select_raises (en : env) (sc : scope) : list (cond * block) -> exn -> Prop :=
| sr_here c b r e : cond_raises en sc c e -> select_raises en sc ((c, b) :: r) e
| sr_later c b r e : ~ cond_holds en sc c -> select_raises en sc r e -> select_raises en sc ((c, b) :: r) e.

(** the branches of a clause without lookahead options *)
Fixpoint plain_branches (r : branches) : option (list (cond * block)) :=
  match r with
  | RNil => Some []
  | RCons (Branch c None b) r' => option_map (cons (c, b)) (plain_branches r')
  | RCons (Branch _ (Some _) _) _ => None
  end.

(** ** C29: sections *)

(** what is stored below [v] under the keys [p] *)
Fixpoint path_get (p : list key) (v : val) : option val :=
  match p with
  | [] => Some v
  | k :: r => match v with
              | VDict d => match dget k d with Some x => path_get r x | None => None end
              | _ => None
              end
  end.

Definition is_prefix {A} (a b : list A) : Prop := exists c, b = a ++ c.
Definition unrelated (p q : list key) : Prop := ~ is_prefix p q /\ ~ is_prefix q p.

(** dictionaries from the open one outwards, as they are seen while the section is open *)
Fixpoint views (d : dict) (up : list frame) : list dict :=
  match up with
  | [] => [d]
  | f :: fs => d :: views (outer f d) fs
  end.
(** [v] is stored under [x] in the first dictionary that has [x] *)
Inductive first_with (x : str) : list dict -> val -> Prop :=
| fw_here d r v : dget (KStr x) d = Some v -> first_with x (d :: r) v
| fw_next d r v : dget (KStr x) d = None -> first_with x r v -> first_with x (d :: r) v.

(** names the parser itself stores in dictionaries while working *)
Definition working_key (k : key) : Prop :=
  k = KStr $"__up" \/ k = KStr $"__abbrevs" \/ k = KStr $"__startidcs".
Definition abbreviation (d : dict) (k : key) : Prop :=
  exists l x, dget (KStr $"__abbrevs") d = Some (VNames l) /\ In x l /\ k = KStr x.

(** ** C25: leniency *)

(** [o'] ignores at least the mismatches [o] ignores *)
Definition lenient (o o' : popts) : Prop :=
  (o_zero o = true -> o_zero o' = true) /\ (o_number o = true -> o_number o' = true) /\
  (o_varspec o = true -> o_varspec o' = true) /\ o_fuzzy o' = o_fuzzy o /\ (o_all o = true -> o_all o' = true).

(** ** C23: field expressions *)

(** [v] is what the variable [x] of a field expression stands for; only the open section is
    searched *)
Definition seen (sc : scope) (x : str) (ix : list idx) (v : val) : Prop := get_raw sc false x ix = Ok v.
(** the same, with the value [v] for the variable [u] *)
Definition assume (u : extvar) (v : val) (look : str -> list idx -> val -> Prop) (x : str) (ix : list idx) (w : val) : Prop :=
  ((x, ix) = u /\ w = v) \/ ((x, ix) <> u /\ look x ix w).

Definition variable (e : expr) (x : str) (ix : list idx) : Prop := e = EVar x ix \/ e = EIncons x ix.

(** the expression [e] has the integer value [z]; abbreviations stand for their definition *)
Inductive zeval (look : str -> list idx -> val -> Prop) : expr -> Z -> Prop :=
| zv_num d z : zeval look (ENum d (NInt z)) z
| zv_var e x ix z : variable e x ix -> look x ix (vint z) -> zeval look e z
| zv_abbrev e x ix a z : variable e x ix -> look x ix (VExpr a) -> zeval look a z -> zeval look e z
| zv_neg a x : zeval look a x -> zeval look (ENeg a) (- x)
| zv_add a b x y : zeval look a x -> zeval look b y -> zeval look (EAdd a b) (x + y)
| zv_sub a b x y : zeval look a x -> zeval look b y -> zeval look (ESub a b) (x - y)
| zv_mul a b x y : zeval look a x -> zeval look b y -> zeval look (EMul a b) (x * y).

(** [e] is built from integers with +, - and *, and [u] is its only variable without value *)
Inductive unknown_in (look : str -> list idx -> val -> Prop) (u : extvar) : expr -> Prop :=
| ui_num d z : unknown_in look u (ENum d (NInt z))
| ui_var e x ix z : variable e x ix -> look x ix (vint z) -> unknown_in look u e
| ui_abbrev e x ix a : variable e x ix -> look x ix (VExpr a) -> unknown_in look u a -> unknown_in look u e
| ui_unknown e : variable e (fst u) (snd u) -> (forall v, ~ look (fst u) (snd u) v) -> unknown_in look u e
| ui_neg a : unknown_in look u a -> unknown_in look u (ENeg a)
| ui_add a b : unknown_in look u a -> unknown_in look u b -> unknown_in look u (EAdd a b)
| ui_sub a b : unknown_in look u a -> unknown_in look u b -> unknown_in look u (ESub a b)
| ui_mul a b : unknown_in look u a -> unknown_in look u b -> unknown_in look u (EMul a b).

(** with 0 for [u] the expression differs from [z], and with 0 and 1 from itself, by less
    than 2^53 *)
Definition exact_range (look : str -> list idx -> val -> Prop) (u : extvar) (e : expr) (z : Z) : Prop :=
  forall c0 c1, zeval (assume u (vint 0) look) e c0 -> zeval (assume u (vint 1) look) e c1 ->
    Z.abs (z - c0) < 2 ^ 53 /\ Z.abs (c1 - c0) < 2 ^ 53.

(** ** C24: comparison with expected values *)

(** equal, or close with fuzzy_matching *)
Inductive same_value (fuzzy : bool) : val -> val -> Prop :=
| sv_num a b : (if fuzzy then math_isclose a b = Ok true else rel_num REq a b) -> same_value fuzzy (VNum a) (VNum b)
| sv_str a : fuzzy = false -> same_value fuzzy (VStr a) (VStr a)
| sv_list l m : Forall2 (same_value fuzzy) l m -> same_value fuzzy (VList l) (VList m).

(** the number [src] in the file is accepted where [exp] is expected *)
Inductive accepted (o : popts) (e : expr) (src exp : val) : Prop :=
| ac_same : same_value (o_fuzzy o) src exp -> accepted o e src exp
| ac_zero : o_zero o = true -> rel_val REq exp (vint 0) -> accepted o e src exp
| ac_number : o_number o = true -> has_desired e = true -> accepted o e src exp
| ac_varspec : o_varspec o = true -> has_incons e = true -> accepted o e src exp
| ac_lookahead : o_all o = true -> accepted o e src exp.

(** an array is no value of a field *)
Definition no_array (v : val) : Prop := forall d, v <> VDict d.

(** ** C22: TEXT records *)

(** the fields, all of them variables, divide [n] columns: each has a positive length and
    only the last one may be without a given length *)
Inductive fills : list textfield -> nat -> Prop :=
| fi_last x n : (0 < n)%nat -> fills [(Some x, None)] n
| fi_end x n : (0 < n)%nat -> fills [(Some x, Some n)] n
| fi_next x n r m : (0 < n)%nat -> fills r m -> fills ((Some x, Some n) :: r) (n + m).

(** the names of the variables of a TEXT record *)
Definition text_names (fs : list textfield) : list str :=
  flat_map (fun f => match fst f with Some u => [fst u] | None => [] end) fs.

(** ** C32: what writing needs *)

Inductive operand : expr -> expr -> Prop :=
| op_neg a : operand a (ENeg a)
| op_addl a b : operand a (EAdd a b) | op_addr a b : operand b (EAdd a b)
| op_subl a b : operand a (ESub a b) | op_subr a b : operand b (ESub a b)
| op_mull a b : operand a (EMul a b) | op_mulr a b : operand b (EMul a b)
| op_divl a b : operand a (EDiv a b) | op_divr a b : operand b (EDiv a b)
| op_modl a b : operand a (EMod a b) | op_modr a b : operand b (EMod a b).

(** the variable [x] with indices [ix] occurs in the expression, perhaps by way of an
    abbreviation *)
Inductive needs (sc : scope) : expr -> str -> list idx -> Prop :=
| ne_var e x ix : variable e x ix -> needs sc e x ix
| ne_abbrev e y iy a x ix : variable e y iy -> seen sc y iy (VExpr a) -> needs sc a x ix -> needs sc e x ix
| ne_operand a e x ix : operand a e -> needs sc a x ix -> needs sc e x ix.

(** the expressions of a record evaluated in the open section *)
Definition open_fields (i : instr) : list expr :=
  match i with
  | ICont _ _ f => [f_c1 f; f_c2 f; f_l1 f; f_l2 f; f_n1 f; f_n2 f]
  | IDir _ a b c d => [a; b; c; d]
  | IIntg _ a b c _ => [a; b; c]
  | ITab1 _ f x y None => [f_c1 f; f_c2 f; f_l1 f; f_l2 f; EVar $"NBT" []; EVar $"INT" []; EVar (fst x) (snd x); EVar (fst y) (snd y)]
  | ITab1 _ f _ _ (Some _) => [f_c1 f; f_c2 f; f_l1 f; f_l2 f]
  | ITab2 _ f None => [f_c1 f; f_c2 f; f_l1 f; f_l2 f; f_n2 f; EVar $"NBT" []; EVar $"INT" []]
  | ITab2 _ f (Some _) => [f_c1 f; f_c2 f; f_l1 f; f_l2 f; f_n2 f]
  | IList _ f _ _ => [f_c1 f; f_c2 f; f_l1 f; f_l2 f; f_n1 f; f_n2 f]
  | _ => []
  end.

(** those evaluated first, in this order *)
Definition first_fields (i : instr) : option (ctrlspec * list expr) :=
  match i with
  | ICont _ cs f | IList cs f _ _ => Some (cs, [f_c1 f; f_c2 f; f_l1 f; f_l2 f; f_n1 f; f_n2 f])
  | IDir cs a b c d => Some (cs, [a; b; c; d])
  | IIntg cs a b c _ => Some (cs, [a; b; c])
  | ITab1 cs f _ _ _ => Some (cs, [f_c1 f; f_c2 f; f_l1 f; f_l2 f])
  | ITab2 cs f _ => Some (cs, [f_c1 f; f_c2 f; f_l1 f; f_l2 f; f_n2 f])
  | _ => None
  end.

Fixpoint bapp (a b : block) : block := match a with BNil => b | BCons i r => BCons i (bapp r b) end.

(** ** C33: the user's dictionary *)

(** no working keys in a dictionary and the dictionaries in it *)
Inductive clean : val -> Prop :=
| cl_dict d : (forall k, working_key k -> dget k d = None) -> (forall k v, dget k d = Some v -> clean v) -> clean (VDict d)
| cl_other v : (forall d, v <> VDict d) -> clean v.
