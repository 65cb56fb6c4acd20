(** Specification vocabulary of C57: the recipe in which the names of abbreviations are
    replaced by the expressions they stand for. *)
From Coq Require Import Ascii String ZArith Bool Lia List.
From Verif Require Import PyBase ModelFortran ModelRecipe ModelInterp SpecInterp SpecRound.
Import ListNotations.
Open Scope Z_scope.

Definition among (x : str) (l : list str) : bool := existsb (str_eqb x) l.

(** ** Names in a recipe *)

(** the abbreviations introduced in the section a block belongs to *)
Fixpoint intro_instr (i : instr) : list str :=
  match i with
  | IAbbrev x _ => [x]
  | IFor _ _ _ body => intro_block body
  | IIf first more els => intro_branch first ++ intro_branches more ++ intro_block els
  | _ => []
  end
with intro_block (b : block) : list str :=
  match b with BNil => [] | BCons i r => intro_instr i ++ intro_block r end
with intro_branch (b : branch) : list str :=
  match b with Branch _ _ body => intro_block body end
with intro_branches (r : branches) : list str :=
  match r with RNil => [] | RCons b r' => intro_branch b ++ intro_branches r' end.

(** all abbreviations of a recipe *)
Fixpoint abbrs_instr (i : instr) : list str :=
  match i with
  | IAbbrev x _ => [x]
  | ISection _ _ body => abbrs_block body
  | IFor _ _ _ body => abbrs_block body
  | IIf first more els => abbrs_branch first ++ abbrs_branches more ++ abbrs_block els
  | _ => []
  end
with abbrs_block (b : block) : list str :=
  match b with BNil => [] | BCons i r => abbrs_instr i ++ abbrs_block r end
with abbrs_branch (b : branch) : list str :=
  match b with Branch _ _ body => abbrs_block body end
with abbrs_branches (r : branches) : list str :=
  match r with RNil => [] | RCons b r' => abbrs_branch b ++ abbrs_branches r' end.

(** the sections of a recipe, including those of tables and lists *)
Definition name_of (u : option extvar) : list str := match u with Some (x, _) => [x] | None => [] end.
Fixpoint sections_instr (i : instr) : list str :=
  match i with
  | ITab1 _ _ _ _ name | ITab2 _ _ name | IList _ _ _ name => name_of name
  | ISection head _ body => fst head :: sections_block body
  | IFor _ _ _ body => sections_block body
  | IIf first more els => sections_branch first ++ sections_branches more ++ sections_block els
  | _ => []
  end
with sections_block (b : block) : list str :=
  match b with BNil => [] | BCons i r => sections_instr i ++ sections_block r end
with sections_branch (b : branch) : list str :=
  match b with Branch _ _ body => sections_block body end
with sections_branches (r : branches) : list str :=
  match r with RNil => [] | RCons b r' => sections_branch b ++ sections_branches r' end.

(** ** What a name stands for *)

(** The abbreviations of a section at some place of the recipe: [Some e] if the name certainly
    stands for [e], [None] if it may have been introduced before. *)
Definition level : Type := list (str * option expr).
Definition hidden (A : level) : list str := map fst A.
Fixpoint meaning (x : str) (A : level) : option (option expr) :=
  match A with
  | [] => None
  | (y, o) :: r => if str_eqb x y then Some o else meaning x r
  end.
Definition without (l : list str) (A : level) : level := filter (fun p => negb (among (fst p) l)) A.
(** names that have perhaps been introduced again *)
Definition forget (l : list str) (A : level) : level := map (fun x => (x, None)) l ++ without l A.
(** after an instruction *)
Definition after (A : level) (i : instr) : level :=
  match i with
  | IAbbrev x e => (x, Some e) :: without [x] A
  | _ => forget (intro_instr i) A
  end.

(** ** Replacing the names *)

(** the expression has no name of the list, and no field in it is marked by [?] *)
Fixpoint free_of (l : list str) (e : expr) : bool :=
  match e with
  | EVar x _ => negb (among x l) && negb (internalb x)
  | EIncons _ _ => false
  | ENum desired _ => negb desired
  | ENeg a => free_of l a
  | EAdd a b | ESub a b | EMul a b | EDiv a b | EMod a b => free_of l a && free_of l b
  end.

(** [bad]: names that may not be used, since they are abbreviations of an enclosing section or
    sections *)
Fixpoint unfold_expr (A : level) (bad : list str) (e : expr) : option expr :=
  match e with
  | EVar x ix =>
      match meaning x A with
      | Some (Some a) => if free_of (hidden A ++ bad) a && match ix with [] => true | _ => false end then Some a else None
      | Some None => None
      | None => if among x bad || internalb x then None else Some e
      end
  | EIncons x ix => if among x (hidden A) || among x bad || internalb x then None else Some e
  | ENum _ _ => Some e
  | ENeg a => option_map ENeg (unfold_expr A bad a)
  | EAdd a b => match unfold_expr A bad a, unfold_expr A bad b with Some a, Some b => Some (EAdd a b) | _, _ => None end
  | ESub a b => match unfold_expr A bad a, unfold_expr A bad b with Some a, Some b => Some (ESub a b) | _, _ => None end
  | EMul a b => match unfold_expr A bad a, unfold_expr A bad b with Some a, Some b => Some (EMul a b) | _, _ => None end
  | EDiv a b => match unfold_expr A bad a, unfold_expr A bad b with Some a, Some b => Some (EDiv a b) | _, _ => None end
  | EMod a b => match unfold_expr A bad a, unfold_expr A bad b with Some a, Some b => Some (EMod a b) | _, _ => None end
  end.
Fixpoint unfold_cond (A : level) (bad : list str) (c : cond) : option cond :=
  match c with
  | CRel r a b => match unfold_expr A bad a, unfold_expr A bad b with Some a, Some b => Some (CRel r a b) | _, _ => None end
  | CAnd a b => match unfold_cond A bad a, unfold_cond A bad b with Some a, Some b => Some (CAnd a b) | _, _ => None end
  | COr a b => match unfold_cond A bad a, unfold_cond A bad b with Some a, Some b => Some (COr a b) | _, _ => None end
  end.

Definition ctrl_nameb (x : str) : bool := str_eqb x $"MAT" || str_eqb x $"MF" || str_eqb x $"MT".

Section Unfold.
  Variable B : list str.          (* the abbreviations of the recipe *)
  Variable secs : list str.       (* its sections *)
  Variable res : list str.        (* names that may not be used for data *)

  Definition unfold_fields (A : level) (f : fields6) : option fields6 :=
    match unfold_expr A res (f_c1 f), unfold_expr A res (f_c2 f), unfold_expr A res (f_l1 f),
          unfold_expr A res (f_l2 f), unfold_expr A res (f_n1 f), unfold_expr A res (f_n2 f) with
    | Some a, Some b, Some c, Some d, Some e, Some g =>
        Some {| f_c1 := a; f_c2 := b; f_l1 := c; f_l2 := d; f_n1 := e; f_n2 := g |}
    | _, _, _, _, _, _ => None
    end.

  (** a name that is read or written *)
  Definition data_name (A : level) (x : str) : bool :=
    negb (among x (hidden A)) && negb (among x res) && negb (internalb x).
  Definition loop_name (v : str) : bool := negb (among v B).
  Definition section_name (A : level) (x : str) : bool :=
    data_name A x && negb (among x B) && negb (ctrl_nameb x) && among x secs.
  Definition text_name (A : level) (bad : list str) (f : textfield) : bool :=
    match fst f with Some (x, _) => data_name A x && negb (among x bad) | None => true end.

  Fixpoint unfold_item (A : level) (bad : list str) (i : litem) : option litem :=
    match i with
    | LExpr e => option_map LExpr (unfold_expr A res e)
    | LPad => Some LPad
    | LLoop v a b body =>
        match unfold_expr A bad a, unfold_expr A bad b, unfold_list A bad body with
        | Some a, Some b, Some body => if loop_name v then Some (LLoop v a b body) else None
        | _, _, _ => None
        end
    end
  with unfold_list (A : level) (bad : list str) (b : lbody) : option lbody :=
    match b with
    | LNil => Some LNil
    | LCons i r => match unfold_item A bad i, unfold_list A bad r with Some i, Some r => Some (LCons i r) | _, _ => None end
    end.

  (** the level at which the fields of a table or list are *)
  Definition table_level (A : level) (name : option extvar) : level := match name with None => A | Some _ => [] end.
  Definition table_ok (A : level) (name : option extvar) : bool :=
    match name with None => true | Some u => section_name A (fst u) end.
  (** names not to be used in conditions and bounds; [O]: the enclosing levels *)
  Definition outside (O : list level) : list str := flat_map hidden O ++ secs.
  Definition table_outside (A : level) (O : list level) (name : option extvar) : list str :=
    outside (match name with None => O | Some _ => A :: O end).

  Definition abbr_name (x : str) : bool :=
    among x B && negb (internalb x) && negb (ctrl_nameb x) && negb (among x secs).

  (** the recipe with all names of abbreviations replaced and without the introductions of
      abbreviations. [None] if a name may mean several things. *)
  Fixpoint unfold_instr (A : level) (O : list level) (i : instr) : option instr :=
    match i with
    | ICont head cs f => option_map (ICont head cs) (unfold_fields A f)
    | IText cs fs => if forallb (text_name A (outside O)) fs then Some i else None
    | IDir cs l1 l2 n1 n2 =>
        match unfold_expr A res l1, unfold_expr A res l2, unfold_expr A res n1, unfold_expr A res n2 with
        | Some a, Some b, Some c, Some d => Some (IDir cs a b c d)
        | _, _, _, _ => None
        end
    | IIntg cs ii jj kij nd =>
        match unfold_expr A res ii, unfold_expr A res jj, unfold_expr A res kij, unfold_expr A (outside O) nd with
        | Some a, Some b, Some c, Some d => Some (IIntg cs a b c d)
        | _, _, _, _ => None
        end
    | ITab1 cs f x y name =>
        if table_ok A name && forallb (data_name (table_level A name)) [$"NBT"; $"INT"; fst x; fst y] then
          match unfold_expr A res (f_c1 f), unfold_expr A res (f_c2 f), unfold_expr A res (f_l1 f), unfold_expr A res (f_l2 f) with
          | Some a, Some b, Some c, Some d =>
              Some (ITab1 cs {| f_c1 := a; f_c2 := b; f_l1 := c; f_l2 := d; f_n1 := f_n1 f; f_n2 := f_n2 f |} x y name)
          | _, _, _, _ => None
          end
        else None
    | ITab2 cs f name =>
        if table_ok A name && forallb (data_name (table_level A name)) [$"NBT"; $"INT"] then
          match unfold_expr A res (f_c1 f), unfold_expr A res (f_c2 f), unfold_expr A res (f_l1 f), unfold_expr A res (f_l2 f),
                unfold_expr A res (f_n2 f) with
          | Some a, Some b, Some c, Some d, Some e =>
              Some (ITab2 cs {| f_c1 := a; f_c2 := b; f_l1 := c; f_l2 := d; f_n1 := f_n1 f; f_n2 := e |} name)
          | _, _, _, _, _ => None
          end
        else None
    | IList cs f body name =>
        if table_ok A name then
          match unfold_fields A f, unfold_list (table_level A name) (table_outside A O name) body with
          | Some f, Some body => Some (IList cs f body name)
          | _, _ => None
          end
        else None
    | ISend => Some ISend
    | IStop => Some IStop
    | ISection head tail body =>
        if section_name A (fst head) then option_map (ISection head tail) (unfold_block [] (A :: O) body) else None
    | IFor v a b body =>
        match unfold_expr A (outside O) a, unfold_expr A (outside O) b, unfold_block (forget (intro_block body) A) O body with
        | Some a, Some b, Some body => if loop_name v then Some (IFor v a b body) else None
        | _, _, _ => None
        end
    | IIf first more els =>
        match unfold_branch A O first, unfold_branches A O more, unfold_block A O els with
        | Some f, Some m, Some e => Some (IIf f m e)
        | _, _, _ => None
        end
    | IAbbrev _ _ => None
    end
  with unfold_block (A : level) (O : list level) (b : block) : option block :=
    match b with
    | BNil => Some BNil
    | BCons (IAbbrev x e) r => if abbr_name x then unfold_block (after A (IAbbrev x e)) O r else None
    | BCons i r => match unfold_instr A O i, unfold_block (after A i) O r with Some i, Some r => Some (BCons i r) | _, _ => None end
    end
  with unfold_branch (A : level) (O : list level) (b : branch) : option branch :=
    match b with
    | Branch c None body =>
        match unfold_cond A (outside O) c, unfold_block A O body with
        | Some c, Some body => Some (Branch c None body)
        | _, _ => None
        end
    | Branch c (Some k) body =>
        (* a condition with lookahead has no abbreviations *)
        match unfold_cond (forget (hidden A ++ intro_block body) []) (outside O) c, unfold_expr A (outside O) k, unfold_block A O body with
        | Some c, Some k, Some body => Some (Branch c (Some k) body)
        | _, _, _ => None
        end
    end
  with unfold_branches (A : level) (O : list level) (r : branches) : option branches :=
    match r with
    | RNil => Some RNil
    | RCons b r' => match unfold_branch A O b, unfold_branches A O r' with Some b, Some r' => Some (RCons b r') | _, _ => None end
    end.
End Unfold.

(** the recipe [b] in which every abbreviation is replaced by its expression *)
Definition unfolded (b : block) : option block := unfold_block (abbrs_block b) (sections_block b) [] [] [] b.
(** the same, if the recipe uses the names of abbreviations for nothing else *)
Definition unfolded_strictly (b : block) : option block :=
  if forallb (abbr_name (abbrs_block b) (sections_block b)) (abbrs_block b)
  then unfold_block (abbrs_block b) (sections_block b) (abbrs_block b) [] [] b else None.

(** a value without expressions in it, as all values of a user are, and without entries that
    have one of the names [l] *)
Inductive data (l : list str) : val -> Prop :=
| data_num n : data l (VNum n)
| data_str s : data l (VStr s)
| data_list vs : Forall (data l) vs -> data l (VList vs)
| data_dict d : Forall (fun kv => (forall x, fst kv = KStr x -> ~ In x l) /\ data l (snd kv)) d -> data l (VDict d)
| data_none : data l VNone.
