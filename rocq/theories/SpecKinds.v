(** The kinds of the variables of a recipe, taken from the positions at which the recipe
    mentions them. Used in the examples of C31: the recipes of the package with their kinds. *)
From Coq Require Import Ascii String ZArith Bool Lia List.
From Verif Require Import PyBase ModelFortran ModelRecipe ModelInterp SpecRound.
Import ListNotations.

(** the section and the name, the kind of the position, and whether there is no index *)
Definition entry : Type := ((list str * str) * (kind * bool))%type.

(** one kind for all the positions *)
Definition only (f : kind -> bool) (l : list (kind * bool)) : bool := forallb (fun q => f (fst q) && snd q) l.
Definition one_kind (l : list (kind * bool)) : option kind :=
  match l with
  | [] => None
  | q :: _ =>
      Some (if only (kind_eqb IntV) l then IntS
            else if existsb (fun q => kind_eqb (fst q) IntN) l then
              if only (fun k => kind_eqb IntV k || kind_eqb IntN k) l then IntM else IntN
            else if only (kind_eqb FltV) l then FltS
            else if negb (only (kind_eqb FltL) l) && only (fun k => kind_eqb FltV k || kind_eqb FltL k) l then FltU
            else fst q)
  end.
Definition same_place (s : list str) (x : str) (e : entry) : bool :=
  list_eqb str_eqb (fst (fst e)) s && str_eqb (snd (fst e)) x.
Definition schema_of (l : list entry) : schema := fun s x => one_kind (map snd (filter (same_place s x) l)).

(** a sum that is multiplied by something else than a literal consists of counts *)
Definition is_lit (e : expr) : bool := match e with ENum _ _ => true | _ => false end.
Definition term_kind (k : kind) (a b : expr) : kind :=
  match a with EAdd _ _ => if is_lit b then k else IntN | _ => k end.

(** the variables of an expression in a field, apart from loop variables *)
Fixpoint expr_kinds (s L : list str) (k : kind) (e : expr) : list entry :=
  match e with
  | EVar x ix | EIncons x ix => if is_loop L x then [] else [((s, x), (k, match ix with [] => true | _ => false end))]
  | ENum _ _ => []
  | ENeg a => expr_kinds s L k a
  | EMul a b => expr_kinds s L (term_kind k a b) a ++ expr_kinds s L (term_kind k b a) b
  | EAdd a b | ESub a b | EDiv a b | EMod a b => expr_kinds s L k a ++ expr_kinds s L k b
  end.
Definition slots_kinds (s L : list str) (l : list (kind * expr)) : list entry :=
  flat_map (fun ke => expr_kinds s L (fst ke) (snd ke)) l.

Fixpoint items_kinds (s L : list str) (b : lbody) : list entry :=
  match b with LNil => [] | LCons i r => item_kinds s L i ++ items_kinds s L r end
with item_kinds (s L : list str) (i : litem) : list entry :=
  match i with
  | LExpr e => expr_kinds s L FltV e
  | LPad => []
  | LLoop v _ _ body => items_kinds s (v :: L) body
  end.

Definition below (s : list str) (name : option extvar) : list str :=
  match name with None => s | Some u => fst u :: s end.
Definition name_kind (s : list str) (name : option extvar) : list entry :=
  match name with None => [] | Some u => [((s, fst u), (SecV, false))] end.

Fixpoint instr_kinds (s L : list str) (i : instr) : list entry :=
  match i with
  | ICont _ _ f => slots_kinds s L (cont_slots f)
  | IText _ fs => flat_map (fun q => match fst q with Some u => [((s, fst u), (TextV, false))] | None => [] end) fs
  | IDir _ a b c d => slots_kinds s L [(IntV, a); (IntV, b); (IntV, c); (IntV, d)]
  | ITab1 _ f x y name =>
      slots_kinds s L [(FltV, f_c1 f); (FltV, f_c2 f); (IntV, f_l1 f); (IntV, f_l2 f)] ++
      name_kind s name ++ slots_kinds (below s name) L (tab_slots ++ [var_slot x; var_slot y])
  | ITab2 _ f name =>
      slots_kinds s L [(FltV, f_c1 f); (FltV, f_c2 f); (IntV, f_l1 f); (IntV, f_l2 f); (IntV, f_n2 f)] ++
      name_kind s name ++ slots_kinds (below s name) L tab_slots
  | IList _ f body name => slots_kinds s L (cont_slots f) ++ name_kind s name ++ items_kinds (below s name) L body
  | ISection head _ body => ((s, fst head), (SecV, false)) :: block_kinds (fst head :: s) L body
  | IFor v _ _ body => block_kinds s (v :: L) body
  | IIf first more els => branch_kinds s L first ++ branches_kinds s L more ++ block_kinds s L els
  | IIntg _ _ _ _ _ | ISend | IStop | IAbbrev _ _ => []
  end
with block_kinds (s L : list str) (b : block) : list entry :=
  match b with
  | BNil => []
  | BCons i r => if stops b then [] else instr_kinds s L i ++ block_kinds s L r
  end
with branch_kinds (s L : list str) (b : branch) : list entry :=
  match b with Branch _ _ body => block_kinds s L body end
with branches_kinds (s L : list str) (r : branches) : list entry :=
  match r with RNil => [] | RCons b r' => branch_kinds s L b ++ branches_kinds s L r' end.

(** the schema of a recipe *)
Definition ctrl_place (s : list str) (x : str) : bool :=
  match s with [] => existsb (str_eqb x) [$"MAT"; $"MF"; $"MT"] | _ => false end.
Definition recipe_schema (b : block) : schema :=
  fun s x => if ctrl_place s x then Some IntV else schema_of (block_kinds [] [] b) s x.
