(** The recipe language: abstract syntax of endf_recipes/endf_lark_ebnf.py 22-156.
    Reading recipe texts (lark grammar) is not modelled; brackets, commas, newlines
    and comment blocks (which only collect variable descriptions) leave no trace. *)
From Coq Require Import Ascii String ZArith Bool Lia List.
From Verif Require Import PyBase ModelFortran.
Import ListNotations.

(** ebnf 143-145: indexquant *)
Inductive idx : Type :=
| IVar (name : str)      (* INDEXVAR *)
| INum (v : num).        (* INDEXNUM *)

(** ebnf 141: extvarname *)
Definition extvar : Type := (str * list idx)%type.

(** ebnf 127-138, 147-156: arithmetic expressions. A NUMBER is given by its value
    (endf_mapping_utils.py 335-345: int if it consists of digits, float otherwise). *)
Inductive expr : Type :=
| EVar (x : str) (ix : list idx)
| EIncons (x : str) (ix : list idx)      (* inconsistent_varspec: x? *)
| ENum (desired : bool) (v : num)        (* NUMBER, DESIRED_NUMBER: 3? *)
| ENeg (a : expr)
| EAdd (a b : expr)
| ESub (a b : expr)
| EMul (a b : expr)
| EDiv (a b : expr)
| EMod (a b : expr).

(** ebnf 113-123: conditions *)
Inductive rel : Type := RGt | RLt | RNe | REq | RGe | RLe.
Inductive cond : Type :=
| CRel (r : rel) (a b : expr)
| CAnd (a b : cond)
| COr (a b : cond).

(** ebnf 36-39: ctrl_spec; [None] stands for the words MAT, MF, MT *)
Record ctrlspec : Type := { cs_mat : option Z; cs_mf : option Z; cs_mt : option Z }.

(** ebnf 42: record_fields *)
Record fields6 : Type := { f_c1 : expr; f_c2 : expr; f_l1 : expr; f_l2 : expr; f_n1 : expr; f_n2 : expr }.

(** ebnf 58-60: textplaceholder: variable and TEXTLENGTH *)
Definition textfield : Type := (option extvar * option nat)%type.

(** ebnf 87-94: list_body and list_loop *)
Inductive litem : Type :=
| LExpr (e : expr)
| LPad
| LLoop (v : str) (start stop : expr) (body : lbody)
with lbody : Type :=
| LNil
| LCons (i : litem) (b : lbody).

(** ebnf 23-33, 49-118: instructions *)
Inductive instr : Type :=
| ICont (head : bool) (cs : ctrlspec) (f : fields6)              (* CONT, HEAD *)
| IText (cs : ctrlspec) (f : list textfield)
| IDir (cs : ctrlspec) (l1 l2 n1 n2 : expr)
| IIntg (cs : ctrlspec) (ii jj kij : expr) (ndigit : expr)
| ITab1 (cs : ctrlspec) (f : fields6) (x y : extvar) (name : option extvar)
| ITab2 (cs : ctrlspec) (f : fields6) (name : option extvar)
| IList (cs : ctrlspec) (f : fields6) (body : lbody) (name : option extvar)
| ISend
| IStop
| ISection (head tail : extvar) (body : block)
| IFor (v : str) (start stop : expr) (body : block)
| IIf (first : branch) (more : branches) (els : block)     (* no else: BNil *)
| IAbbrev (name : str) (e : expr)
with block : Type :=
| BNil
| BCons (i : instr) (b : block)
with branch : Type :=
| Branch (c : cond) (lookahead : option expr) (body : block)
with branches : Type :=
| RNil
| RCons (b : branch) (r : branches).

(** tree_utils.py 74-82: search_name for DESIRED_NUMBER and for inconsistent_varspec *)
Fixpoint has_desired (e : expr) : bool :=
  match e with
  | EVar _ _ | EIncons _ _ => false
  | ENum d _ => d
  | ENeg a => has_desired a
  | EAdd a b | ESub a b | EMul a b | EDiv a b | EMod a b => has_desired a || has_desired b
  end.
Fixpoint has_incons (e : expr) : bool :=
  match e with
  | EVar _ _ | ENum _ _ => false
  | EIncons _ _ => true
  | ENeg a => has_incons a
  | EAdd a b | ESub a b | EMul a b | EDiv a b | EMod a b => has_incons a || has_incons b
  end.
