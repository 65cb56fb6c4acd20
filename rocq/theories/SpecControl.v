(** Specification of what reading a section has checked: the control numbers of every
    record, and the values of a LIST record. *)
From Coq Require Import Ascii String ZArith Bool List.
From Verif Require Import PyBase PyFloat ModelFortran ModelRecords ModelTape ModelNum ModelRecipe ModelInterp SpecTape SpecInterp.
Import ListNotations.
Open Scope Z_scope.

(** ** Control numbers *)

(** the numbers written in a recipe in front of a record, e.g. [MAT, 3, MT/ ...] *)
Definition meets (cs : ctrlspec) (mat mf mt : Z) : Prop :=
  (forall z, cs_mat cs = Some z -> mat = z) /\
  (forall z, cs_mf cs = Some z -> mf = z) /\
  (forall z, cs_mt cs = Some z -> mt = z).

(** the control specifications of the records of a recipe *)
Fixpoint specs (i : instr) : list ctrlspec :=
  match i with
  | ICont _ cs _ | IText cs _ | IDir cs _ _ _ _ | IIntg cs _ _ _ _ | ITab1 cs _ _ _ _
  | ITab2 cs _ _ | IList cs _ _ _ => [cs]
  | ISend | IStop => []
  | ISection _ _ b => specs_block b
  | IFor _ _ _ b => specs_block b
  | IIf first more els => specs_branch first ++ specs_branches more ++ specs_block els
  | IAbbrev _ _ => []
  end
with specs_block (b : block) : list ctrlspec :=
  match b with BNil => [] | BCons i r => specs i ++ specs_block r end
with specs_branch (b : branch) : list ctrlspec :=
  match b with Branch _ _ body => specs_block body end
with specs_branches (r : branches) : list ctrlspec :=
  match r with RNil => [] | RCons b r => specs_branch b ++ specs_branches r end.

(** the line at [p] starts a record of one of the given specifications, or ends the section *)
Definition placed (w : nat) (all : list ctrlspec) (lines : list str) (p : nat) : Prop :=
  exists l mat mf mt, nth_error lines p = Some l /\ carries w l mat mf mt /\
    (mt = 0 \/ exists cs, In cs all /\ meets cs mat mf mt).

(** ** Values of a LIST record *)

(** [takes body p vs s s']: with [p] values before it, the body of a LIST record takes exactly
    the values [vs], in this order, and the parser goes from [s] to [s']. One value goes to
    each element, padding takes the rest of the line, and a loop takes the values of all its
    iterations. *)
Inductive takes_item (en : env) : litem -> nat -> list num -> pstate -> pstate -> Prop :=
| tk_expr e p n s s' :
    map_read en [(VNum n, e)] s = (Ok tt, s') ->
    takes_item en (LExpr e) p [n] s s'
| tk_pad p vs s :
    (length vs < 6)%nat -> ((p + length vs) mod 6 = 0)%nat ->
    takes_item en LPad p vs s s
| tk_loop v e1 e2 body p vs s s' a b :
    has_int en s e1 a -> has_int en s e2 b ->
    takes_loop en v body b a p vs s s' ->
    takes_item en (LLoop v e1 e2 body) p vs s (set_loops (ps_loops s) s')
with takes (en : env) : lbody -> nat -> list num -> pstate -> pstate -> Prop :=
| tk_nil p s : takes en LNil p [] s s
| tk_cons i r p vs ws s s1 s2 :
    takes_item en i p vs s s1 -> takes en r (p + length vs) ws s1 s2 ->
    takes en (LCons i r) p (vs ++ ws) s s2
with takes_loop (en : env) : str -> lbody -> Z -> Z -> nat -> list num -> pstate -> pstate -> Prop :=
| tk_done v body b a p s : b < a -> takes_loop en v body b a p [] s s
| tk_next v body b a p vs ws s s1 s2 :
    a <= b ->
    takes en body p vs (set_loops ((v, a) :: ldel v (ps_loops s)) s) s1 ->
    takes_loop en v body b (a + 1) (p + length vs) ws s1 s2 ->
    takes_loop en v body b a p (vs ++ ws) s s2.

(** the last line of a LIST record may lack the values that padding would take *)
Definition takes_all (en : env) (body : lbody) (vals : list num) (s s' : pstate) : Prop :=
  exists missing, takes en body 0 (vals ++ missing) s s' /\
    (missing <> [] -> (length missing < 6)%nat /\ (length (vals ++ missing) mod 6 = 0)%nat).

(** ** Formats *)

(** the section numbers a format treats differently from ENDF-6 *)
Definition overridden (format : str) (mf mt : Z) : Prop :=
  (format = $"jendl" /\ mf = 8 /\ mt = 457) \/
  (format = $"endf6-ext" /\ (mf = 8 /\ mt = 457 \/ mf = 4)) \/
  (format = $"pendf" /\ (mf = 1 /\ mt = 451 \/ mf = 2 /\ (mt = 152 \/ mt = 153) \/ mf = 3 \/ mf = 6 \/ mf = 23)).
