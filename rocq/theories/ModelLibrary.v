(** Model of endf_parserpy/utils/endf6_plumbing.py 25-58: set_library. *)
From Coq Require Import Ascii String ZArith Bool List.
From Verif Require Import PyBase PyFloat ModelFortran ModelRecords ModelTape ModelInterp ModelPath ModelTools.
Import ListNotations.
Open Scope Z_scope.

Definition set_int (name : str) (z : Z) (d : dict) : dict := dset (KStr name) (VNum (NInt z)) d.
Definition set_numbers (nlib nver lrel : Z) (d : dict) : dict :=
  set_int $"LREL" lrel (set_int $"NVER" nver (set_int $"NLIB" nlib d)).

(** endf6_plumbing.py 27-48: the numbers of the library and its name; None: the type is unknown *)
Definition library_numbers (libtype : str) : option (Z * Z * Z * str) :=
  if str_eqb libtype $"ENDF/B-VII.0" then Some (0, 7, 0, $"ENDF/B-VII.0")
  else if str_eqb libtype $"ENDF/B-VII.1" then Some (0, 7, 1, $"ENDF/B-VII.1")
  else if str_eqb libtype $"ENDF/B-VIII.0" then Some (0, 8, 0, $"ENDF/B-VIII.0")
  else if str_eqb libtype $"FENDL-3.2" then Some (33, 3, 2, $"FENDL-3.2")
  else None.

(** [re.match("---- *[A-Z][^ ]+", s)], line 55. A greedy match of the blanks is enough
    because the letter behind them is no blank. *)
Fixpoint drop_spaces (s : str) : str :=
  match s with c :: r => if chr_eqb c " "%char then drop_spaces r else s | [] => [] end.
Definition is_capital (c : ascii) : bool := ((65 <=? nat_of_ascii c) && (nat_of_ascii c <=? 90))%nat.
Definition signature_ok (s : str) : bool :=
  str_eqb (firstn 4 s) $"----" &&
  match drop_spaces (skipn 4 s) with
  | c :: d :: _ => is_capital c && negb (chr_eqb d " "%char)
  | _ => false
  end.

(** 25-58; [mt451] is [endf_dic[1][451]]. The dictionary returned is the one the caller is left
    with, also if an exception is raised. Simplification: a DESCRIPTION that is no
    dictionary gives TypeError. *)
Definition set_library (libtype : str) (mt451 : dict) : result unit * dict :=
  match library_numbers libtype with
  | None => (Err TypeError, mt451)
  | Some (nlib, nver, lrel, txt) =>
      let d := set_numbers nlib nver lrel mt451 in
      match dget (KStr $"DESCRIPTION") d with
      | None => (Err ValueError, d)
      | Some (VDict descr) =>
          match dget (KInt 3) descr with
          | None => (Err IndexError, d)
          | Some (VStr s) =>
              if signature_ok s
              then (Ok tt, dset (KStr $"DESCRIPTION") (VDict (dset (KInt 3) (VStr (ljust 22 ($"----" ++ txt) ++ skipn 22 s)) descr)) d)
              else (Err ValueError, d)
          | Some _ => (Err TypeError, d)
          end
      | Some _ => (Err TypeError, d)
      end
  end.
