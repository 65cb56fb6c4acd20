(** What is said about the functions that the compiler generates for recipes. *)
From Coq Require Import Ascii String ZArith Bool Lia List.
From Verif Require Import PyBase PyFloat ModelFortran ModelRecords ModelNum ModelRecipe ModelInterp ModelCpp ModelCppTab ModelCppGen.
From Verif Require Import SpecFields SpecCpp SpecCppTab SpecCppRead.
Import ListNotations.
Open Scope Z_scope.

(** ** The same data *)

(** [v] is read by Python, [w] by C++: the same integer, or the same double with the same text *)
Definition num_alike (v w : num) : Prop :=
  match w with
  | NInt b => v = NInt b
  | NEndf f s => same_number v {| ef_value := f; ef_orig := s |}
  | NFlt _ => False
  end.
(** The same texts, lists and dictionaries; the order in a dictionary does not matter. *)
Inductive alike_val : val -> val -> Prop :=
| alike_num v w : num_alike v w -> alike_val (VNum v) (VNum w)
| alike_str s : alike_val (VStr s) (VStr s)
| alike_list l m : Forall2 alike_val l m -> alike_val (VList l) (VList m)
| alike_dict d e :
    (forall k, dget k d = None <-> dget k e = None) ->
    (forall k v w, dget k d = Some v -> dget k e = Some w -> alike_val v w) ->
    alike_val (VDict d) (VDict e).
Definition same_data (d e : dict) : Prop := alike_val (VDict d) (VDict e).

(** ** Names *)

Definition field_name (e : expr) : list str :=
  match e with EVar x _ | EIncons x _ => [x] | _ => [] end.
Definition fields_names (f : fields6) : list str := flat_map field_name (fields_list f).
Fixpoint litem_names (i : litem) : list str :=
  match i with
  | LExpr e => field_name e
  | LPad => []
  | LLoop _ _ _ b => lbody_names b
  end
with lbody_names (b : lbody) : list str :=
  match b with LNil => [] | LCons i r => litem_names i ++ lbody_names r end.
Definition text_names (fs : list textfield) : list str :=
  flat_map (fun f => match fst f with Some u => [fst u] | None => [] end) fs.
Definition tab2_names : list str := [$"NBT"; $"INT"].
Definition tab1_names (x y : extvar) : list str := [fst x; fst y] ++ tab2_names.

(** the names that the records of a section (not those of its subsections) give values to, and
    the names of its subsections *)
Definition named (name : option extvar) (l : list str) : list str :=
  match name with None => l | Some u => [fst u] end.
Fixpoint own_names (i : instr) : list str :=
  match i with
  | ICont _ _ f => fields_names f
  | ITab1 _ f x y name => fields_names f ++ named name (tab1_names x y)
  | ITab2 _ f name => fields_names f ++ named name tab2_names
  | IList _ f b name => fields_names f ++ named name (lbody_names b)
  | IDir _ l1 l2 n1 n2 => flat_map field_name [l1; l2; n1; n2]
  | IText _ fs => text_names fs
  | ISection head _ _ => [fst head]
  | IFor _ _ _ b => own_names_block b
  | IIf first more els => own_names_branch first ++ own_names_branches more ++ own_names_block els
  | _ => []
  end
with own_names_block (b : block) : list str :=
  match b with BNil => [] | BCons i r => own_names i ++ own_names_block r end
with own_names_branch (b : branch) : list str := match b with Branch _ _ body => own_names_block body end
with own_names_branches (r : branches) : list str :=
  match r with RNil => [] | RCons b r' => own_names_branch b ++ own_names_branches r' end.

(** the names that conditions and bounds of loops look up *)
Fixpoint expr_names (e : expr) : list str :=
  match e with
  | EVar x _ | EIncons x _ => [x]
  | ENum _ _ => []
  | ENeg a => expr_names a
  | EAdd a b | ESub a b | EMul a b | EDiv a b | EMod a b => expr_names a ++ expr_names b
  end.
Fixpoint cond_names (c : cond) : list str :=
  match c with
  | CRel _ a b => expr_names a ++ expr_names b
  | CAnd a b | COr a b => cond_names a ++ cond_names b
  end.
Fixpoint litem_used (i : litem) : list str :=
  match i with
  | LLoop _ a b body => expr_names a ++ expr_names b ++ lbody_used body
  | _ => []
  end
with lbody_used (b : lbody) : list str :=
  match b with LNil => [] | LCons i r => litem_used i ++ lbody_used r end.
Fixpoint used (i : instr) : list str :=
  match i with
  | IList _ _ b _ => lbody_used b
  | ISection _ _ b => used_block b
  | IFor _ a b body => expr_names a ++ expr_names b ++ used_block body
  | IIf first more els => used_branch first ++ used_branches more ++ used_block els
  | _ => []
  end
with used_block (b : block) : list str :=
  match b with BNil => [] | BCons i r => used i ++ used_block r end
with used_branch (b : branch) : list str := match b with Branch c _ body => cond_names c ++ used_block body end
with used_branches (r : branches) : list str :=
  match r with RNil => [] | RCons b r' => used_branch b ++ used_branches r' end.

Definition disjoint (a b : list str) : Prop := forall x, In x a -> ~ In x b.

(** names that the interpreter uses itself *)
Definition reserved : list str := [$"MAT"; $"MF"; $"MT"; $"__up"; $"__abbrevs"; $"__startidcs"].
(** [own]: the names of a section, [used]: those that it looks up, [outer]: the names of the
    sections around it. A name of the section that is looked up is not a name around it. *)
Definition not_hiding (own used outer : list str) : Prop :=
  disjoint own reserved /\ forall x, In x own -> In x used -> ~ In x outer.
Definition named_apart (outer : list str) (name : option extvar) (own used : list str) : Prop :=
  match name with None => True | Some _ => not_hiding own used outer end.
Fixpoint apart (outer : list str) (i : instr) : Prop :=
  match i with
  | ITab1 _ _ x y name => named_apart outer name (tab1_names x y) []
  | ITab2 _ _ name => named_apart outer name tab2_names []
  | IList _ _ b name => named_apart outer name (lbody_names b) (lbody_used b)
  | ISection _ _ b => not_hiding (own_names_block b) (used_block b) outer /\ apart_block (own_names_block b ++ outer) b
  | IFor _ _ _ b => apart_block outer b
  | IIf first more els => apart_branch outer first /\ apart_branches outer more /\ apart_block outer els
  | _ => True
  end
with apart_block (outer : list str) (b : block) : Prop :=
  match b with BNil => True | BCons i r => apart outer i /\ apart_block outer r end
with apart_branch (outer : list str) (b : branch) : Prop := match b with Branch _ _ body => apart_block outer body end
with apart_branches (outer : list str) (r : branches) : Prop :=
  match r with RNil => True | RCons b r' => apart_branch outer b /\ apart_branches outer r' end.

Definition names_apart (recipe : block) : Prop :=
  disjoint (own_names_block recipe) reserved /\
  apart_block (own_names_block recipe ++ reserved) recipe.

(** ** The run *)

(** the control numbers in the columns 67 to 75 of a line *)
Definition line_ctrl (l : str) (c : ctrl) : Prop :=
  cpp_read_mat_number l = Val (MAT c) /\ cpp_read_mf_number l = Val (MF c) /\ cpp_read_mt_number l = Val (MT c).
(** Nothing that has been read is read again without a check, there is no table or list without
    elements, and the integers of tables are written as integers. The lines that numbers are read
    from consist of digits, letters and signs of numbers; the lines of texts carry the numbers of
    the section. *)
Definition regular_note (a : note) : Prop :=
  match a with
  | Again _ | Empty => False
  | Ranges n lines => forall k, (k < n)%nat -> exists z, read_fort_int (field_no lines 0 k) = Ok z
  | Numbers lines => Forall (fun l => number_field (firstn 66 l)) lines
  | Text c l => exists d, c = Some d /\ line_ctrl l d
  end.

(** a line of digits, letters and signs of numbers *)
Definition number_line (l : str) : Prop := plain_line l /\ number_field (firstn 66 l).

(** the options of the two parsers agree *)
Definition same_reading (o : copts) (ro : ropts) : Prop :=
  r_width ro = 11%nat /\ r_spaces ro = co_accept o /\ r_preserve ro = co_preserve o.
