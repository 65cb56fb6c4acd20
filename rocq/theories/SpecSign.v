(** C55, C56: the control numbers on written lines; files as a whole. *)
From Coq Require Import Ascii String ZArith Bool List.
From Verif Require Import PyBase PyFloat ModelFortran ModelRecords ModelTape ModelNum ModelRecipe ModelInterp.
Import ListNotations.
Open Scope Z_scope.

(** MAT, MF and MT in four, two and three columns *)
Definition ctrl_text (mat mf mt : Z) : str :=
  rjust 4 (str_of_Z mat) ++ rjust 2 (str_of_Z mf) ++ rjust 3 (str_of_Z mt).
(** a line that ends with the control numbers *)
Definition signed (mat mf mt : Z) (l : str) : Prop := exists t, l = t ++ ctrl_text mat mf mt.

(** no dictionary in [v] has an entry MAT *)
Inductive no_mat : val -> Prop :=
| nm_dict d : dget (KStr $"MAT") d = None -> (forall k v, dget k d = Some v -> no_mat v) -> no_mat (VDict d)
| nm_other v : (forall d, v <> VDict d) -> no_mat v.
(** MAT is stored for the section as a whole only *)
Definition one_mat (d : dict) : Prop := forall k v, dget k d = Some v -> no_mat v.

(** recipes without SEND *)
Fixpoint no_send_instr (i : instr) : bool :=
  match i with
  | ISend => false
  | ISection _ _ b | IFor _ _ _ b => no_send b
  | IIf b r els => no_send_branch b && no_send_branches r && no_send els
  | _ => true
  end
with no_send (b : block) : bool :=
  match b with BNil => true | BCons i r => no_send_instr i && no_send r end
with no_send_branch (b : branch) : bool :=
  match b with Branch _ _ body => no_send body end
with no_send_branches (r : branches) : bool :=
  match r with RNil => true | RCons b r' => no_send_branch b && no_send_branches r' end.
