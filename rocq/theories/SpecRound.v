(** Specification vocabulary of C31: which dictionaries belong to a recipe, what it means
    that a dictionary is another one as printed, and the recipes considered. *)
From Coq Require Import Ascii String ZArith Bool Lia List.
From Coq Require Import Floats.SpecFloat.
From Verif Require Import PyBase PyFloat ModelFortran ModelRecords ModelNum ModelRecipe ModelInterp.
From Verif Require Import SpecFields SpecInterp.
Import ListNotations.
Open Scope Z_scope.

(** ** Kinds of variables *)

(** an integer, a real number, a column of integers or of real numbers, a text, a section;
    also: an integer or a real number that is never an element of an array, a name that
    holds a real number at one place of the recipe and a column of them at another, and
    counts, integers that are not negative, in arrays or never in arrays *)
Inductive kind : Type := IntV | FltV | IntL | FltL | TextV | SecV | IntS | FltS | FltU | IntN | IntM.
Definition kind_eqb (a b : kind) : bool :=
  match a, b with
  | IntV, IntV | FltV, FltV | IntL, IntL | FltL, FltL | TextV, TextV | SecV, SecV
  | IntS, IntS | FltS, FltS | FltU, FltU | IntN, IntN | IntM, IntM => true
  | _, _ => false
  end.
(** a name of kind [K] may hold a value of kind [k] *)
Definition admits (K k : kind) : bool :=
  kind_eqb K k ||
  match K, k with
  | IntS, IntV | IntN, IntV | IntM, IntV | FltS, FltV | FltU, FltV | FltU, FltL => true
  | _, _ => false
  end.
Definition scalar (K : kind) : bool := match K with IntS | FltS | IntM => true | _ => false end.
Definition count (K : kind) : bool := match K with IntN | IntM => true | _ => false end.

(** the kind of a name in a section, given by the names of the open sections (innermost
    first); [None]: the name does not occur there *)
Definition schema : Type := list str -> str -> option kind.

(** names the parser itself uses *)
Definition internal (x : str) : Prop := x = $"__up" \/ x = $"__abbrevs" \/ x = $"__startidcs".
Definition internalb (x : str) : bool :=
  str_eqb x $"__up" || str_eqb x $"__abbrevs" || str_eqb x $"__startidcs".

Definition good_schema (G : schema) : Prop :=
  (forall s x, internal x -> G s x = None) /\
  G [] $"MAT" = Some IntV /\ G [] $"MF" = Some IntV /\ G [] $"MT" = Some IntV.

Section Printed.
  Variable wo : wopts.
  Variable ro : ropts.

  (** [v] is printed into a field that reads as [w], which is not nan *)
  Definition reads_as (v w : num) : Prop := float_rt wo ro v w /\ num_eqb w w = true.

  (** [v'] is [v] as printed: integers and columns of integers exactly, real numbers as
      the printed text reads, texts up to spaces at the end of the line *)
  Inductive printed : kind -> val -> val -> Prop :=
  | pr_int K z : admits K IntV = true -> printed K (vint z) (vint z)
  | pr_flt K n w : admits K FltV = true -> reads_as n w -> printed K (VNum n) (VNum w)
  | pr_ints K l : admits K IntL = true -> printed K (VList (map vint l)) (VList (map vint l))
  | pr_flts K l m : admits K FltL = true -> Forall2 reads_as l m -> printed K (VList (map VNum l)) (VList (map VNum m))
  | pr_text K t k : admits K TextV = true -> printed K (VStr t) (VStr (t ++ spaces k)).

  (** a value that can be stored under a name of this kind and be printed: reals that are
      read back, integers below 2^53, not negative if they are counts, which in columns fit
      into a field *)
  Inductive printable : kind -> val -> Prop :=
  | pb_int K z : admits K IntV = true -> Z.abs z <= 2 ^ 53 -> (count K = true -> 0 <= z) -> printable K (vint z)
  | pb_flt K n w : admits K FltV = true -> reads_as n w -> printable K (VNum n)
  | pb_ints K l : admits K IntL = true -> Forall (small_int (w_width wo)) l -> printable K (VList (map vint l))
  | pb_flts K l m : admits K FltL = true -> Forall2 reads_as l m -> printable K (VList (map VNum l))
  | pb_text K t : admits K TextV = true -> printable K (VStr t).

  (** the kind of what is stored under the keys [p] in the section [s]; [k] is the kind of the
      name of the section. Integer keys are indices of arrays. *)
  Fixpoint kind_at (G : schema) (s : list str) (k : kind) (p : list key) : option kind :=
    match p with
    | [] => Some k
    | KInt _ :: r => match s with [] => None | _ => kind_at G s k r end
    | KStr y :: r => match G s y with Some k' => kind_at G (y :: s) k' r | None => None end
    end.

  Definition is_dict (v : val) : Prop := exists d, v = VDict d.
  Definition user_path (p : list key) : Prop := Forall (fun k => ~ working_key k) p.

  (** the dictionary of a section belongs to the schema: its entries and those of the
      dictionaries in it are named by the schema and are dictionaries or printable *)
  Definition conforms (G : schema) (d : dict) : Prop :=
    forall p v, user_path p -> path_get p (VDict d) = Some v ->
      exists k, kind_at G [] SecV p = Some k /\ (is_dict v /\ scalar k = false \/ printable k v).

  (** [d'] holds part of [d] as printed *)
  Definition printed_part (G : schema) (d d' : dict) : Prop :=
    forall p v', user_path p -> path_get p (VDict d') = Some v' ->
      exists v, path_get p (VDict d) = Some v /\
        ((is_dict v /\ is_dict v') \/ exists k, kind_at G [] SecV p = Some k /\ printed k v v').

  Definition ctrl_name (x : str) : Prop := x = $"MAT" \/ x = $"MF" \/ x = $"MT".

  (** [e] is [d] without some values that [d'] lacks; it has all the sections and the control
      numbers of [d] *)
  Definition thinned (d' d e : dict) : Prop :=
    forall p, user_path p ->
      path_get p (VDict e) = path_get p (VDict d) \/
      (exists a b, path_get p (VDict e) = Some (VDict a) /\ path_get p (VDict d) = Some (VDict b)) \/
      (path_get p (VDict e) = None /\ path_get p (VDict d') = None /\
       (exists v, path_get p (VDict d) = Some v /\ ~ is_dict v) /\
       forall q x, p = q ++ [KStr x] -> ~ ctrl_name x).
End Printed.

(** MF and MT are entered if they are missing *)
Definition put_missing (x : str) (z : Z) (d : dict) : dict :=
  match dget (KStr x) d with Some _ => d | None => dset (KStr x) (vint z) d end.
Definition numbered (mf mt : Z) (d : dict) : dict := put_missing $"MT" mt (put_missing $"MF" mf d).

(** no field is wider than its columns: six fields and nine columns for MAT, MF and MT; the
    last line, SEND, has its line number already *)
Definition in_columns (wo : wopts) (lines : list str) : Prop :=
  exists body send, lines = body ++ [send] /\
    Forall (fun l => length l = (6 * w_width wo + 9)%nat) body /\
    length send = (6 * w_width wo + 9 + (if w_linenum wo then 5 else 0))%nat.

(** ** The recipes *)

Definition is_loop (L : list str) (x : str) : bool := existsb (str_eqb x) L.
Definition idx_ok (L : list str) (q : idx) : bool :=
  match q with IVar x => is_loop L x | INum (NInt _) => true | INum _ => false end.
Definition idx_eqb (a b : idx) : bool :=
  match a, b with
  | IVar x, IVar y => str_eqb x y
  | INum (NInt x), INum (NInt y) => x =? y
  | _, _ => false
  end.
Definition var_eqb (a b : extvar) : bool := str_eqb (fst a) (fst b) && list_eqb idx_eqb (snd a) (snd b).
Definition mem (t : extvar) (l : list extvar) : bool := existsb (var_eqb t) l.
Definition meet (a b : list extvar) : list extvar := filter (fun t => mem t b) a.

(** a literal that is an integer other than zero, respectively a zero *)
Definition nonzero_lit (e : expr) : bool :=
  match e with ENum _ (NInt z) => negb (z =? 0) | _ => false end.
Definition zero_lit (n : num) : bool :=
  match n with NInt z => z =? 0 | NFlt (S754_zero false) => true | _ => false end.

Section Recipes.
  Variable G : schema.
  Variable cols : nat.                            (* columns of a TEXT record *)

  Definition has_kind (s : list str) (x : str) (k : kind) : bool :=
    match G s x with Some k' => kind_eqb k' k | None => false end.
  (** a value of kind [k] in the variable [u] *)
  Definition may_hold (s : list str) (u : extvar) (k : kind) : bool :=
    match G s (fst u) with
    | Some K => kind_eqb K k || admits K k && match snd u with [] => true | _ => kind_eqb K IntN end
    | None => false
    end.
  Definition no_name (s : list str) (x : str) : bool :=
    negb (internalb x) && match G s x with None => true | Some _ => false end.

  (** The checks below follow the recipe from its start. [s] names the open sections, [L]
      the loop variables, [D] the variables of the open section read for certain, [O] the
      enclosing sections with the variables read for certain there. *)

  (** a variable of kind [k] in a field *)
  Definition field_var (s : list str) (L : list str) (k : kind) (u : extvar) : bool :=
    negb (is_loop L (fst u)) && forallb (idx_ok L) (snd u) && may_hold s u k.

  (** an integer expression all of whose variables have been read *)
  Fixpoint known (s L : list str) (D : list extvar) (e : expr) : bool :=
    match e with
    | EVar x ix | EIncons x ix =>
        if is_loop L x then no_name s x else mem (x, ix) D && field_var s L IntV (x, ix)
    | ENum _ (NInt _) => true
    | ENum _ _ => false
    | ENeg a => known s L D a
    | EAdd a b | ESub a b | EMul a b | EMod a b => known s L D a && known s L D b
    | EDiv _ _ => false
    end.

  (** an expression of counts that is not negative, respectively positive, for certain *)
  Fixpoint natural (s L : list str) (e : expr) : bool :=
    match e with
    | EVar x _ | EIncons x _ => negb (is_loop L x) && match G s x with Some K => count K | None => false end
    | ENum _ (NInt z) => 0 <=? z
    | EAdd a b | EMul a b => natural s L a && natural s L b
    | _ => false
    end.
  Fixpoint above_zero (s L : list str) (e : expr) : bool :=
    match e with
    | ENum _ (NInt z) => 0 <? z
    | EAdd a b => above_zero s L a && natural s L b || natural s L a && above_zero s L b
    | EMul a b => above_zero s L a && above_zero s L b
    | _ => false
    end.
  (** a factor that is an integer other than zero *)
  Definition factor (s L : list str) (D : list extvar) (e : expr) : bool :=
    nonzero_lit e || known s L D e && above_zero s L e.

  (** an integer expression linear in one variable that may be new *)
  Fixpoint linear (s L : list str) (D : list extvar) (e : expr) : option extvar :=
    match e with
    | EVar x ix | EIncons x ix => if field_var s L IntV (x, ix) then Some (x, ix) else None
    | ENeg a => linear s L D a
    | EAdd a b | ESub a b =>
        if known s L D b then linear s L D a
        else if known s L D a then linear s L D b else None
    | EMul a b =>
        if factor s L D b then linear s L D a
        else if factor s L D a then linear s L D b else None
    | _ => None
    end.

  (** a field of kind [k]; the variables read for certain after it *)
  Definition slot (s L : list str) (D : list extvar) (k : kind) (e : expr) : option (list extvar) :=
    match k with
    | IntV => if known s L D e then Some D
              else match linear s L D e with Some u => Some (u :: D) | None => None end
    | FltV => match e with
              | EVar x ix | EIncons x ix => if field_var s L k (x, ix) then Some ((x, ix) :: D) else None
              | ENum _ n => if zero_lit n then Some D else None
              | _ => None
              end
    | IntL | FltL => match e with
                     | EVar x ix => if field_var s L k (x, ix) then Some ((x, ix) :: D) else None
                     | _ => None
                     end
    | _ => None
    end.
  Fixpoint slots (s L : list str) (D : list extvar) (l : list (kind * expr)) : option (list extvar) :=
    match l with
    | [] => Some D
    | (k, e) :: r => match slot s L D k e with Some D' => slots s L D' r | None => None end
    end.

  (** an expression in a condition or loop bound: its variables are loop variables or have
      been read in the first section outwards that has the name *)
  Fixpoint resolved (O : list (list str * list extvar)) (x : str) (ix : list idx) : bool :=
    match O with
    | [] => false
    | (s, D) :: r => match G s x with
                     | Some K => admits K IntV && mem (x, ix) D
                     | None => negb (internalb x) && resolved r x ix
                     end
    end.
  Fixpoint control (L : list str) (O : list (list str * list extvar)) (e : expr) : bool :=
    match e with
    | EVar x ix | EIncons x ix =>
        if is_loop L x then match O with (s, _) :: _ => no_name s x | [] => false end
        else resolved O x ix
    | ENum _ _ => true
    | ENeg a => control L O a
    | EAdd a b | ESub a b | EMul a b | EDiv a b | EMod a b => control L O a && control L O b
    end.
  Fixpoint control_cond (L : list str) (O : list (list str * list extvar)) (c : cond) : bool :=
    match c with
    | CRel _ a b => control L O a && control L O b
    | CAnd a b | COr a b => control_cond L O a && control_cond L O b
    end.

  (** a loop variable is new and no name of the open section *)
  Definition new_loop (s L : list str) (v : str) : bool := negb (is_loop L v) && no_name s v.

  (** the section named in an instruction *)
  Definition section_var (s L : list str) (u : extvar) : bool :=
    forallb (idx_ok L) (snd u) && has_kind s (fst u) SecV.

  Fixpoint list_items (s L : list str) (O : list (list str * list extvar)) (D : list extvar) (b : lbody)
    : option (list extvar) :=
    match b with
    | LNil => Some D
    | LCons i r => match list_item1 s L O D i with Some D' => list_items s L O D' r | None => None end
    end
  with list_item1 (s L : list str) (O : list (list str * list extvar)) (D : list extvar) (i : litem)
    : option (list extvar) :=
    match i with
    | LExpr e => slot s L D FltV e
    | LPad => Some D
    | LLoop v a b body =>
        if control L ((s, D) :: O) a && control L ((s, D) :: O) b && new_loop s L v then
          match list_items s (v :: L) O D body with Some _ => Some D | None => None end
        else None
    end.

  (** the fields of a TEXT record within [cols] columns; only the last may be without length *)
  Fixpoint text_fields (L : list str) (pos : nat) (fs : list textfield) : bool :=
    match fs with
    | [] => true
    | (u, Some n) :: r =>
        match u with Some x => field_var [] L TextV x | None => true end &&
        (0 <? n)%nat && (pos + n <=? cols)%nat && text_fields L (pos + n) r
    | [(Some x, None)] => field_var [] L TextV x && (pos <? cols)%nat
    | (_, None) :: _ => false
    end.

  Definition cont_slots (f : fields6) : list (kind * expr) :=
    [(FltV, f_c1 f); (FltV, f_c2 f); (IntV, f_l1 f); (IntV, f_l2 f); (IntV, f_n1 f); (IntV, f_n2 f)].
  Definition tab_slots : list (kind * expr) := [(IntL, EVar $"NBT" []); (IntL, EVar $"INT" [])].
  Definition var_slot (u : extvar) : kind * expr := (FltL, EVar (fst u) (snd u)).

  (** fields in a section of their own, if it is named *)
  Definition named (s L : list str) (D : list extvar) (name : option extvar)
      (f : list str -> list extvar -> option (list extvar)) : option (list extvar) :=
    match name with
    | None => f s D
    | Some u => if section_var s L u
                then match f (fst u :: s) [] with Some _ => Some D | None => None end
                else None
    end.

  Definition at_top (s : list str) : bool := match s with [] => true | _ => false end.

  (** a block with a stop instruction, which no writer passes *)
  Fixpoint stops (b : block) : bool :=
    match b with BNil => false | BCons IStop _ => true | BCons _ r => stops r end.
  (** the variables read whichever block is chosen *)
  Definition meet_all (D : list extvar) (l : list (list extvar)) : list extvar :=
    match l with [] => D | x :: r => fold_right meet x r end.

  (** ** Lookahead

      The condition of a branch with lookahead is evaluated with the fields of the first
      record of its block, applied to the line that comes next: that of whichever block of
      the conditional was written. *)

  Definition ctrl_vars : list extvar := [($"MAT", []); ($"MF", []); ($"MT", [])].

  Inductive rtype : Type := RCont (head : bool) | RTab1 | RList.
  Record first : Type := { fs_type : rtype; fs_spec : ctrlspec; fs_slots : list (kind * expr) }.
  (** the first record of a block and, if any, the condition under which it is written *)
  Definition look : Type := (first * option cond)%type.

  Definition first_record (b : block) : option first :=
    match b with
    | BCons (ICont head cs f) _ => Some {| fs_type := RCont head; fs_spec := cs; fs_slots := cont_slots f |}
    | BCons (ITab1 cs f _ _ _) _ =>
        Some {| fs_type := RTab1; fs_spec := cs;
                fs_slots := [(FltV, f_c1 f); (FltV, f_c2 f); (IntV, f_l1 f); (IntV, f_l2 f)] |}
    | BCons (IList cs f _ _) _ => Some {| fs_type := RList; fs_spec := cs; fs_slots := cont_slots f |}
    | _ => None
    end.
  Definition look_entry (c : option cond) (b : block) : option (list look) :=
    if stops b then Some []
    else match first_record b with Some f => Some [(f, c)] | None => None end.
  (** what may be written by the branches and the block after them *)
  Fixpoint looks_of (r : branches) (els : block) : option (list look) :=
    match r with
    | RNil => look_entry None els
    | RCons (Branch c _ body) r' =>
        match look_entry (Some c) body, looks_of r' els with
        | Some a, Some b => Some (a ++ b)
        | _, _ => None
        end
    end.

  Definition same_record (a b : rtype) : bool :=
    match a, b with RCont _, RCont _ | RTab1, RTab1 | RList, RList => true | _, _ => false end.
  Definition spec_eqb (a b : option Z) : bool :=
    match a, b with Some x, Some y => x =? y | None, None => true | _, _ => false end.
  Definition same_spec (a b : ctrlspec) : bool :=
    spec_eqb (cs_mat a) (cs_mat b) && spec_eqb (cs_mf a) (cs_mf b) && spec_eqb (cs_mt a) (cs_mt b).

  Fixpoint mentions (x : str) (e : expr) : bool :=
    match e with
    | EVar y _ | EIncons y _ => str_eqb x y
    | ENum _ _ => false
    | ENeg a => mentions x a
    | EAdd a b | ESub a b | EMul a b | EDiv a b | EMod a b => mentions x a || mentions x b
    end.
  Fixpoint cond_mentions (x : str) (c : cond) : bool :=
    match c with
    | CRel _ a b => mentions x a || mentions x b
    | CAnd a b | COr a b => cond_mentions x a || cond_mentions x b
    end.
  (** a field that is a name without indices *)
  Definition plain_name (e : expr) : option str :=
    match e with EVar x [] | EIncons x [] => Some x | _ => None end.
  (** a name that is never an array *)
  Definition scalar_name (s L : list str) (x : str) : bool :=
    negb (is_loop L x) && match G s x with Some k => scalar k | None => false end.

  (** fields that can be applied to any line of integers and reals: names, literals, and
      multiples of a name that is in none of the fields before *)
  Fixpoint peekable (s L : list str) (seen : list expr) (l : list (kind * expr)) : bool :=
    match l with
    | [] => true
    | (k, e) :: r =>
        match e with
        | EVar x [] | EIncons x [] => scalar_name s L x
        | ENum _ _ => true
        | EMul (ENum _ (NInt z)) (EVar x []) =>
            negb (z =? 0) && kind_eqb k IntV && scalar_name s L x && has_kind s x IntS &&
            negb (existsb (mentions x) seen)
        | _ => false
        end && peekable s L (seen ++ [e]) r
    end.
  (** the integer in this field is at most 2^106 *)
  Definition small_field (L : list str) (e : expr) : bool :=
    match e with
    | EVar x [] | EIncons x [] => negb (is_loop L x)
    | ENum _ (NInt z) => Z.abs z <=? 2 ^ 53
    | EMul (ENum _ (NInt z)) (EVar x []) => (Z.abs z <=? 2 ^ 53) && negb (is_loop L x)
    | _ => false
    end.
  Definition no_product (e : expr) : bool := match e with EMul _ _ => false | _ => true end.
  Fixpoint fitting (L : list str) (p q : list (kind * expr)) : bool :=
    match p, q with
    | [], [] => true
    | (k, e) :: p', (k', e') :: q' => kind_eqb k k' && (no_product e || small_field L e') && fitting L p' q'
    | _, _ => false
    end.

  (** the integer variables that both have in the same field and the first in no other *)
  Fixpoint shared (s : list str) (all : list (kind * expr)) (p q : list (kind * expr)) : list extvar :=
    match p, q with
    | (IntV, e) :: p', (IntV, e') :: q' =>
        match plain_name e, plain_name e' with
        | Some x, Some y =>
            if str_eqb x y && has_kind s x IntS && Nat.eqb (length (filter (fun f => mentions x (snd f)) all)) 1
            then (x, []) :: shared s all p' q' else shared s all p' q'
        | _, _ => shared s all p' q'
        end
    | _ :: p', _ :: q' => shared s all p' q'
    | _, _ => []
    end.

  (** [c] being true, [x] is not [z] *)
  Fixpoint excludes (x : str) (z : Z) (c : cond) : bool :=
    match c with
    | CRel REq (EVar y []) (ENum _ (NInt z')) => str_eqb x y && negb (z =? z')
    | CRel _ _ _ => false
    | CAnd a b => excludes x z a || excludes x z b
    | COr a b => excludes x z a && excludes x z b
    end.
  Definition refutes (q : option cond) (c : cond) : bool :=
    match q, c with
    | Some a, CRel REq (EVar x []) (ENum _ (NInt z)) => excludes x z a
    | _, _ => false
    end.
  (** the condition is determined by the variables in [O], if [q] is true *)
  Fixpoint decided (L : list str) (O : list (list str * list extvar)) (q : option cond) (c : cond) : bool :=
    match c with
    | CRel _ a b => control L O a && control L O b
    | CAnd a b => decided L O q a && (refutes q a || decided L O q b)
    | COr a b => decided L O q a && decided L O q b
    end.

  Definition look_at (s L : list str) (O : list (list str * list extvar)) (D : list extvar) (c : cond)
      (p : first) (q : look) : bool :=
    same_record (fs_type p) (fs_type (fst q)) && same_spec (fs_spec p) (fs_spec (fst q)) &&
    fitting L (fs_slots p) (fs_slots (fst q)) &&
    decided L ((s, shared s (fs_slots p) (fs_slots p) (fs_slots (fst q)) ++ D) :: O) (snd q) c.
  Definition one (k : expr) : bool := match k with ENum _ (NInt 1) => true | _ => false end.
  Definition look_ok (s L : list str) (O : list (list str * list extvar)) (D : list extvar) (c : cond) (k : expr) (body : block)
      (Q : option (list look)) : bool :=
    match first_record body, Q with
    | Some p, Some l =>
        one k && peekable s L [] (fs_slots p) &&
        match fs_type p with
        | RCont true => at_top s && negb (existsb (fun u => cond_mentions (fst u) c) ctrl_vars)
        | _ => true
        end && forallb (look_at s L O D c p) l
    | _, _ => false
    end.

  Fixpoint readable (s L : list str) (O : list (list str * list extvar)) (D : list extvar) (i : instr)
    : option (list extvar) :=
    match i with
    | ICont head _ f =>
        if negb head || at_top s then
          match slots s L D (cont_slots f) with
          | Some D' => Some (if head then ctrl_vars ++ D' else D')
          | None => None
          end
        else None
    | IText _ fs => if at_top s && text_fields L 0 fs then Some D else None
    | IDir _ l1 l2 n1 n2 => slots s L D [(IntV, l1); (IntV, l2); (IntV, n1); (IntV, n2)]
    | ITab1 _ f x y name =>
        match slots s L D [(FltV, f_c1 f); (FltV, f_c2 f); (IntV, f_l1 f); (IntV, f_l2 f)] with
        | None => None
        | Some D' => named s L D' name (fun s' D'' => slots s' L D'' (tab_slots ++ [var_slot x; var_slot y]))
        end
    | ITab2 _ f name =>
        match slots s L D [(FltV, f_c1 f); (FltV, f_c2 f); (IntV, f_l1 f); (IntV, f_l2 f); (IntV, f_n2 f)] with
        | None => None
        | Some D' => named s L D' name (fun s' D'' => slots s' L D'' tab_slots)
        end
    | IList _ f body name =>
        match slots s L D (cont_slots f) with
        | None => None
        | Some D' =>
            match name with
            | None => list_items s L O D' body
            | Some u => if section_var s L u
                        then match list_items (fst u :: s) L ((s, D') :: O) [] body with
                             | Some _ => Some D' | None => None
                             end
                        else None
            end
        end
    | ISection head tail body =>
        if str_eqb (fst head) (fst tail) && section_var s L head then
          match readable_block (fst head :: s) L ((s, D) :: O) [] body with Some _ => Some D | None => None end
        else None
    | IFor v a b body =>
        if control L ((s, D) :: O) a && control L ((s, D) :: O) b && new_loop s L v then
          match readable_block s (v :: L) O D body with Some _ => Some D | None => None end
        else None
    | IIf first more els =>
        match readable_branch s L O D (looks_of (RCons first more) els) first, readable_branches s L O D more els with
        | Some a, Some b =>
            if stops els then Some (meet_all D (a ++ b))
            else match readable_block s L O D els with
                 | Some c => Some (meet_all D (a ++ b ++ [c]))
                 | None => None
                 end
        | _, _ => None
        end
    | IIntg _ _ _ _ _ | ISend | IStop | IAbbrev _ _ => None
    end
  with readable_block (s L : list str) (O : list (list str * list extvar)) (D : list extvar) (b : block)
    : option (list extvar) :=
    match b with
    | BNil => Some D
    | BCons i r => match readable s L O D i with Some D' => readable_block s L O D' r | None => None end
    end
  with readable_branch (s L : list str) (O : list (list str * list extvar)) (D : list extvar) (Q : option (list look)) (b : branch)
    : option (list (list extvar)) :=
    match b with
    | Branch c la body =>
        if match la with None => control_cond L ((s, D) :: O) c | Some k => look_ok s L O D c k body Q end then
          if stops body then Some []
          else match readable_block s L O D body with Some a => Some [a] | None => None end
        else None
    end
  with readable_branches (s L : list str) (O : list (list str * list extvar)) (D : list extvar) (r : branches) (els : block)
    : option (list (list extvar)) :=
    match r with
    | RNil => Some []
    | RCons b r' => match readable_branch s L O D (looks_of r els) b, readable_branches s L O D r' els with
                    | Some x, Some y => Some (x ++ y)
                    | _, _ => None
                    end
    end.

  (** a recipe: readable instructions followed by SEND *)
  Definition readable_recipe (b : block) : bool :=
    match readable_block [] [] [] [] b with Some _ => true | None => false end.
End Recipes.

(** ** Conditionals with lookahead that choose nothing

    If no branch is chosen and there is no [else], nothing is written, and the reader looks
    ahead into whatever comes next. [closed b] is the recipe [b] with a stop instruction in
    the place of such a missing [else]. *)
Definition looks_ahead (b : branch) : bool := match b with Branch _ (Some _) _ => true | Branch _ None _ => false end.
Fixpoint any_ahead (r : branches) : bool := match r with RNil => false | RCons b r' => looks_ahead b || any_ahead r' end.
Definition closed_else (ahead : bool) (els : block) : block :=
  match els with BNil => if ahead then BCons IStop BNil else BNil | _ => els end.

Fixpoint closed_instr (i : instr) : instr :=
  match i with
  | ISection head tail body => ISection head tail (closed body)
  | IFor v a b body => IFor v a b (closed body)
  | IIf first more els =>
      IIf (closed_branch first) (closed_branches more) (closed_else (looks_ahead first || any_ahead more) (closed els))
  | i => i
  end
with closed (b : block) : block :=
  match b with BNil => BNil | BCons i r => BCons (closed_instr i) (closed r) end
with closed_branch (b : branch) : branch :=
  match b with Branch c la body => Branch c la (closed body) end
with closed_branches (r : branches) : branches :=
  match r with RNil => RNil | RCons b r' => RCons (closed_branch b) (closed_branches r') end.
