(** Python primitives used by endf-parserpy: strings, integers as text, results.

    Simplifications (stated once for all files):
    - [str] is a list of 8-bit characters (Latin-1); Unicode is not modelled.
    - an exception is a value of type [exn]; messages are dropped. *)
From Coq Require Import Ascii String ZArith Bool Lia List.
Import ListNotations.
Open Scope Z_scope.

Definition str := list ascii.

(** string literals: [$"abc"] *)
Notation "$ x" := (list_ascii_of_string x) (at level 0, x at level 0, only parsing).

(** Exceptions raised by the modelled code:
    interpreter/custom_exceptions.py 12-120 and Python's built-in ones. *)
Inductive exn : Type :=
| InvalidIntegerError | InvalidFloatError | NotSectionEndError
| UnexpectedEndOfInputError | UnexpectedControlRecordError | BlankLineError
| MoreListElementsExpectedError | UnconsumedListElementsError
| NumberMismatchError | SizeMismatchError | SeveralUnboundVariablesError
| VariableInDenominatorError | VariableNotFoundError (name : str)
| UnavailableIndexError | LoopVariableError | AbbreviationNameCollisionError
| MissingSectionError (name : str) | InconsistentSectionBracketsError | StopException
| IndexError | KeyError | ValueError | TypeError | ZeroDivisionError
| OverflowError | AssertionError | AttributeError | RecursionError
| FileExistsError | NameError.

(** subclasses of ParserException (interpreter/custom_exceptions.py 13-100) *)
Definition is_parser_exception (e : exn) : bool :=
  match e with
  | IndexError | KeyError | ValueError | TypeError | ZeroDivisionError
  | OverflowError | AssertionError | AttributeError | RecursionError
  | FileExistsError | NameError => false
  | _ => true
  end.

Inductive result (A : Type) : Type :=
| Ok (a : A)
| Err (e : exn).
Arguments Ok {A} a.
Arguments Err {A} e.

Definition bind {A B} (r : result A) (f : A -> result B) : result B :=
  match r with Ok a => f a | Err e => Err e end.
Notation "'do' x <- r ; k" := (bind r (fun x => k))
  (at level 200, x pattern, r at level 100, k at level 200, right associativity).

Fixpoint mapM {A B} (f : A -> result B) (l : list A) : result (list B) :=
  match l with
  | [] => Ok []
  | x :: r => do y <- f x; do ys <- mapM f r; Ok (y :: ys)
  end.

(** ** Characters *)

Definition code (c : ascii) : nat := nat_of_ascii c.

(** [c.isspace()] for an 8-bit character *)
Definition is_ws (c : ascii) : bool :=
  let n := code c in
  ((9 <=? n) && (n <=? 13))%nat || ((28 <=? n) && (n <=? 32))%nat
  || (n =? 133)%nat || (n =? 160)%nat.

(** [c.isdigit()], ASCII digits only *)
Definition is_digit (c : ascii) : bool := ((48 <=? code c) && (code c <=? 57))%nat.

Definition digit_val (c : ascii) : Z := Z.of_nat (code c) - 48.
Definition digit_chr (d : Z) : ascii := ascii_of_nat (48 + Z.to_nat d).

Definition chr_eqb : ascii -> ascii -> bool := Ascii.eqb.

Fixpoint str_eqb (a b : str) : bool :=
  match a, b with
  | [], [] => true
  | x :: a', y :: b' => chr_eqb x y && str_eqb a' b'
  | _, _ => false
  end.

(** ** Slices and padding *)

(** [s[a:b]] for [0 <= a <= b] *)
Definition slice {A} (a b : nat) (s : list A) : list A := firstn (b - a) (skipn a s).

Definition spaces (n : nat) : str := repeat " "%char n.

(** [s.rjust(n)], [s.ljust(n)], [s.ljust(n, c)] *)
Definition rjust (n : nat) (s : str) : str := spaces (n - length s) ++ s.
Definition ljust (n : nat) (s : str) : str := s ++ spaces (n - length s).
Definition ljust_with (n : nat) (c : ascii) (s : str) : str := s ++ repeat c (n - length s).

(** [s.lstrip()], [s.rstrip()], [s.strip()], [s.rstrip(c)] *)
Fixpoint lstrip (s : str) : str :=
  match s with
  | c :: r => if is_ws c then lstrip r else s
  | [] => []
  end.
Definition rstrip (s : str) : str := rev (lstrip (rev s)).
Definition strip (s : str) : str := rstrip (lstrip s).

Fixpoint lstrip_chr (c0 : ascii) (s : str) : str :=
  match s with
  | c :: r => if chr_eqb c c0 then lstrip_chr c0 r else s
  | [] => []
  end.
Definition rstrip_chr (c0 : ascii) (s : str) : str := rev (lstrip_chr c0 (rev s)).

(** [s.strip() == ""] *)
Definition is_blank (s : str) : bool := match strip s with [] => true | _ => false end.

(** [s.replace(c, "")] for a single character *)
Definition remove_chr (c0 : ascii) (s : str) : str :=
  filter (fun c => negb (chr_eqb c c0)) s.

(** ** Decimal text of integers *)

(** the [w] last decimal digits of [n >= 0], most significant first *)
Fixpoint digits_fixed (w : nat) (n : Z) : str :=
  match w with
  | O => []
  | S w' => digits_fixed w' (n / 10) ++ [digit_chr (n mod 10)]
  end.

(** number of decimal digits of [n >= 0] (1 for 0) *)
Fixpoint ndigits_aux (fuel : nat) (n : Z) : nat :=
  match fuel with
  | O => 1%nat
  | S f => if n <? 10 then 1%nat else S (ndigits_aux f (n / 10))
  end.
Definition ndigits (n : Z) : nat := ndigits_aux (S (Z.to_nat (Z.log2 n))) n.

(** [str(n)] for an integer *)
Definition str_of_nonneg (n : Z) : str := digits_fixed (ndigits n) n.
Definition str_of_Z (n : Z) : str :=
  if n <? 0 then "-"%char :: str_of_nonneg (- n) else str_of_nonneg n.

(** ** Integers from text: Python's [int(s)] *)

(** value of a digit string, [None] if some character is not a digit *)
Fixpoint digits_val_acc (s : str) (acc : Z) : option Z :=
  match s with
  | [] => Some acc
  | c :: r => if is_digit c then digits_val_acc r (10 * acc + digit_val c) else None
  end.

(** underscores are allowed only between two digits (PEP 515) *)
Fixpoint us_ok_from (prev_digit : bool) (s : str) : bool :=
  match s with
  | [] => true
  | c :: r =>
      if chr_eqb c "_"%char
      then prev_digit && match r with d :: _ => is_digit d | [] => false end
           && us_ok_from false r
      else us_ok_from (is_digit c) r
  end.

Definition us_ok (s : str) : bool := us_ok_from false s.
Definition drop_us (s : str) : str := remove_chr "_"%char s.

(** optional sign; [true] means minus *)
Definition take_sign (s : str) : bool * str :=
  match s with
  | c :: r => if chr_eqb c "-"%char then (true, r)
              else if chr_eqb c "+"%char then (false, r) else (false, s)
  | [] => (false, [])
  end.

(** [int(s)]; [None] models ValueError *)
Definition int_of_str (s : str) : option Z :=
  let t := strip s in
  let '(neg, d) := take_sign t in
  if negb (us_ok d) then None else
  match drop_us d with
  | [] => None
  | d' => match digits_val_acc d' 0 with
          | Some v => Some (if neg then - v else v)
          | None => None
          end
  end.
