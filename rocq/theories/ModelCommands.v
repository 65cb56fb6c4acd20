(** Model of the commands that only look at files: validate (cli/actions/validate.py), match
    (cli/actions/match.py) and compare (cli/actions/compare.py). *)
From Coq Require Import Ascii String ZArith Bool List.
From Coq Require Import Floats.SpecFloat.
From Verif Require Import PyBase PyFloat ModelFortran ModelRecords ModelTape ModelNum ModelRecipe ModelInterp ModelParser ModelPath ModelMatch ModelTools ModelCli.
Import ListNotations.
Open Scope Z_scope.

(** endf_parser.py 1191-1193. [read] gives the lines of a file, or the exception of open(); the options for
    parsing are the state of the parser object. *)
Definition parsefile (p : parser) (read : str -> result (list str)) (o : popts) (file : str) : result val * popts :=
  match read file with
  | Err e => (Err e, o)
  | Ok lines => let '(r, o') := parse p false None None o lines in (do d <- r; Ok (as_object d), o')
  end.

Section Commands.
  (** [parsefile] of the parser object, whose state is an [S] *)
  Context {S : Type}.
  Variable pf : S -> str -> result val * S.

  (** validate.py 41-53: any_failed and file_status_list *)
  Fixpoint validate_loop (s : S) (failed : bool) (status : list (str * bool)) (files : list str) : bool * list (str * bool) :=
    match files with
    | [] => (failed, status)
    | f :: r => match pf s f with
                | (Ok _, s') => validate_loop s' failed (status ++ [(f, true)]) r
                | (Err _, s') => validate_loop s' true (status ++ [(f, false)]) r
                end
    end.
  (** validate.py 30-38 and 55-59: the exit code and the summary. [glob] gives the files whose names match a pattern. *)
  Definition validate (glob : str -> list str) (s : S) (names : list str) : Z * list (str * bool) :=
    let '(failed, status) := validate_loop s false [] (flat_map glob names) in
    (if failed then 1 else 0, status).

  (** match.py 45-65: any_failed, and what is found out about the files that can be parsed. An exception of the
      evaluation ends the program. *)
  Fixpoint match_loop (q : query) (s : S) (failed : bool) (out : list (str * bool)) (files : list str) : result (bool * list (str * bool)) :=
    match files with
    | [] => Ok (failed, out)
    | f :: r => match pf s f with
                | (Ok v, s') => do b <- eval_tree_print q v; match_loop q s' failed (out ++ [(f, b)]) r
                | (Err _, s') => match_loop q s' true out r
                end
    end.
  (** match.py 32-42; the query is already parsed *)
  Definition match_files (glob : str -> list str) (q : query) (s : S) (names : list str) : result (Z * list (str * bool)) :=
    do x <- match_loop q s false [] (flat_map glob names);
    Ok (if fst x then 1 else 0, snd x).

  (** compare.py 36-56; the exit code of a program that ends with an exception is 1 *)
  Definition compare_files (atol rtol : spec_float) (s : S) (file1 file2 : str) : Z :=
    match pf s file1 with
    | (Err _, _) => 1
    | (Ok a, s1) =>
        match pf s1 file2 with
        | (Err _, _) => 1
        | (Ok b, _) =>
            match fst (compare_objects {| c_atol := atol; c_rtol := rtol; c_strlen := false; c_rstrip := false; c_cut := None; c_fail := false |} a b) with
            | Ok true => 0
            | _ => 1
            end
        end
    end.
End Commands.
