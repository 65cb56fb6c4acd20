(** Model of the operations on files: writefile (endf_parser.py, endf_parser_cpp.py), the commands
    that change files in place (cli/), and the cache of compiled recipes (endf_recipe_utils.py).

    A directory maps names to files; several names may refer to the same file (hard links). A
    program is a sequence of system calls, each of which is atomic. The process may be interrupted
    before and after every system call, and other processes may execute system calls in between.

    Simplifications:
    - Linux and Darwin only: cmd_utils.py 115-116 (os.rename on Windows) is not modelled;
    - system calls fail only because a name exists or does not exist (no permissions, no full
      disk, no directories or symbolic links);
    - the text of a file reaches the disk in pieces, which are not determined further. *)
From Coq Require Import Ascii String ZArith Bool List.
From Verif Require Import PyBase ModelRecipe ModelParser.
Import ListNotations.

(** ** Directories *)

(** [names]: the number of the file a name refers to. [files]: the contents *)
Record disk : Type := { names : list (str * nat); files : list str }.

Fixpoint nget (n : str) (l : list (str * nat)) : option nat :=
  match l with
  | [] => None
  | (m, i) :: r => if str_eqb n m then Some i else nget n r
  end.
Definition node (d : disk) (n : str) : option nat := nget n (names d).
Definition content (d : disk) (n : str) : option str :=
  match node d n with Some i => nth_error (files d) i | None => None end.
Fixpoint set_nth (i : nat) (x : str) (l : list str) : list str :=
  match l, i with
  | [], _ => []
  | _ :: r, O => x :: r
  | y :: r, S i => y :: set_nth i x r
  end.

Inductive action : Type :=
| AExists (n : str)          (* os.path.exists *)
| ARead (n : str)            (* open(n).read() *)
| ALink (src dst : str)      (* os.link *)
| AUnlink (n : str)          (* os.unlink *)
| AOpen (n : str)            (* open(n, "w"): truncates an existing file *)
| AWrite (i : nat) (s : str) (* a piece of text appended to the opened file *).
Inductive reply : Type := RDone | RFail | RBool (b : bool) | RText (s : str) | RFile (i : nat).

Definition do_action (a : action) (d : disk) : reply * disk :=
  match a with
  | AExists n => (RBool (match node d n with Some _ => true | None => false end), d)
  | ARead n => (match content d n with Some s => RText s | None => RFail end, d)
  | ALink src dst =>
      match node d src, node d dst with
      | Some i, None => (RDone, {| names := (dst, i) :: names d; files := files d |})
      | _, _ => (RFail, d)
      end
  | AUnlink n =>
      match node d n with
      | Some _ => (RDone, {| names := filter (fun mi => negb (str_eqb n (fst mi))) (names d); files := files d |})
      | None => (RFail, d)
      end
  | AOpen n =>
      match node d n with
      | Some i => (RFile i, {| names := names d; files := set_nth i [] (files d) |})
      | None => (RFile (length (files d)), {| names := (n, length (files d)) :: names d; files := files d ++ [[]] |})
      end
  | AWrite i s =>
      (RDone, {| names := names d;
                 files := match nth_error (files d) i with Some t => set_nth i (t ++ s) (files d) | None => files d end |})
  end.

(** ** Programs *)

(** an exception of the parser, FileExistsError of writefile, OSError of create_backup_file, any
    other OSError, an error of pickle.load *)
Inductive failure : Type := Raised (e : exn) | Exists | NoBackup | NoFile | BadPickle.
Inductive prog (A : Type) : Type :=
| Return (x : A)
| Throw (f : failure)
| Do (a : action) (k : reply -> prog A).
Arguments Return {A}. Arguments Throw {A}. Arguments Do {A}.

Fixpoint andthen {A B : Type} (p : prog A) (k : A -> prog B) : prog B :=
  match p with
  | Return x => k x
  | Throw f => Throw f
  | Do a k' => Do a (fun r => andthen (k' r) k)
  end.

(** the states of the directory at the points where the program may be interrupted: at the
    beginning, after every system call *)
Fixpoint points {A : Type} (p : prog A) (d : disk) : list disk :=
  d :: match p with
       | Do a k => let '(r, d') := do_action a d in points (k r) d'
       | _ => []
       end.
(** the undisturbed execution *)
Fixpoint execute {A : Type} (p : prog A) (d : disk) : (A + failure) * disk :=
  match p with
  | Return x => (inl x, d)
  | Throw f => (inr f, d)
  | Do a k => let '(r, d') := do_action a d in execute (k r) d'
  end.
(** two programs with a schedule: true for a system call of the first one *)
Fixpoint run_both {A B : Type} (sched : list bool) (p : prog A) (q : prog B) (d : disk) : prog A * prog B * disk :=
  match sched with
  | [] => (p, q, d)
  | true :: s =>
      match p with
      | Do a k => let '(r, d') := do_action a d in run_both s (k r) q d'
      | _ => run_both s p q d
      end
  | false :: s =>
      match q with
      | Do a k => let '(r, d') := do_action a d in run_both s p (k r) d'
      | _ => run_both s p q d
      end
  end.

Fixpoint write_pieces (i : nat) (l : list str) : prog unit :=
  match l with
  | [] => Return tt
  | s :: r => Do (AWrite i s) (fun _ => write_pieces i r)
  end.

(** ** writefile *)

(** what [write] produces: pieces of text, and the exception that ends it, if any *)
Definition output : Type := (list str * option exn)%type.

(** endf_parser.py 1231-1240: the text is made before the file is opened *)
Definition writefile_py (n : str) (out : output) (overwrite : bool) : prog unit :=
  Do (AExists n) (fun r =>
    match r, overwrite with
    | RBool true, false => Throw Exists
    | _, _ =>
        match snd out with
        | Some e => Throw (Raised e)
        | None => Do (AOpen n) (fun r => match r with RFile i => write_pieces i (fst out) | _ => Throw NoFile end)
        end
    end).
(** endf_parser_cpp.py 308-318 and code_generator_writing.py 506-533: the file is opened first *)
Definition writefile_cpp (n : str) (out : output) (overwrite : bool) : prog unit :=
  Do (AExists n) (fun r =>
    match r, overwrite with
    | RBool true, false => Throw Exists
    | _, _ =>
        Do (AOpen n) (fun r =>
          match r with
          | RFile i => andthen (write_pieces i (fst out)) (fun _ => match snd out with Some e => Throw (Raised e) | None => Return tt end)
          | _ => Throw NoFile
          end)
    end).
Definition writefile (cpp : bool) : str -> output -> bool -> prog unit :=
  if cpp then writefile_cpp else writefile_py.

(** ** Commands *)

(** cmd_utils.py 113-139 *)
Fixpoint backup_from (tries : nat) (file backup : str) : prog unit :=
  match tries with
  | O => Throw NoBackup
  | S tries =>
      let backup := backup ++ $".bak" in
      Do (ALink file backup) (fun r =>
        match r with
        | RDone => Do (AUnlink file) (fun r => match r with RDone => Return tt | _ => backup_from tries file backup end)
        | _ => backup_from tries file backup
        end)
  end.
Definition create_backup_file (file : str) : prog unit := backup_from 10 file file.

(** actions/insert_text.py 48-54, actions/update_directory.py 43-47 and one file of
    actions/replace.py 92-98: [edit] maps the text of the file to what will be written, or to the
    exception of the parser or of the change *)
Definition modify_file (cpp backup : bool) (edit : str -> result output) (file : str) : prog unit :=
  Do (ARead file) (fun r =>
    match r with
    | RText s =>
        match edit s with
        | Err e => Throw (Raised e)
        | Ok out =>
            andthen (if backup then create_backup_file file else Return tt)
                    (fun _ => writefile cpp file out (negb backup))
        end
    | _ => Throw NoFile
    end).
(** actions/replace.py 83-99 *)
Fixpoint modify_files (cpp backup : bool) (edit : str -> result output) (l : list str) : prog unit :=
  match l with
  | [] => Return tt
  | n :: r => andthen (modify_file cpp backup edit n) (fun _ => modify_files cpp backup edit r)
  end.
Definition replace (cpp backup : bool) (edit : str -> str -> result output) (source : str) (l : list str) : prog unit :=
  Do (ARead source) (fun r =>
    match r with
    | RText s => modify_files cpp backup (edit s) l
    | _ => Throw NoFile
    end).

(** ** The cache of compiled recipes *)

Section Cache.
(** compiled recipes; the recipe parser made from the grammar; md5; pickle.dump as the pieces that
    are written and pickle.load *)
Context {T : Type}.
Variable compile : str -> str -> result T.
Variable hash : str -> str.
Variable dump : T -> list str.
Variable load : str -> option T.

(** endf_recipe_utils.py 29-44; [dir] with the final separator, None for cache_dir=False *)
Definition cache_file (dir grammar recipe : str) : str := dir ++ hash (hash grammar ++ hash recipe) ++ $".pkl".
Definition get_recipe_parsetree (dir : option str) (grammar recipe : str) : prog T :=
  let compiled := match compile grammar recipe with Ok t => Return t | Err e => Throw (Raised e) end in
  match dir with
  | None => compiled
  | Some dir =>
      let n := cache_file dir grammar recipe in
      Do (AExists n) (fun r =>
        match r with
        | RBool true =>
            Do (ARead n) (fun r =>
              match r with
              | RText s => match load s with Some t => Return t | None => Throw BadPickle end
              | _ => Throw NoFile
              end)
        | _ =>
            andthen compiled (fun t =>
              Do (AOpen n) (fun r =>
                match r with
                | RFile i => andthen (write_pieces i (dump t)) (fun _ => Return t)
                | _ => Throw NoFile
                end))
        end)
  end.

(** 47-60: a recipe for an MF or recipes for its MTs *)
Inductive per_mf (A : Type) : Type := One (x : A) | ByMt (l : list (Z * A)).
Arguments One {A}. Arguments ByMt {A}.
Fixpoint prog_map {A B : Type} (f : A -> prog B) (l : list (Z * A)) : prog (list (Z * B)) :=
  match l with
  | [] => Return []
  | (k, x) :: r => andthen (f x) (fun y => andthen (prog_map f r) (fun ys => Return ((k, y) :: ys)))
  end.
Definition get_recipe_parsetree_dic (dir : option str) (grammar : str) (recipes : list (Z * per_mf str)) : prog (list (Z * per_mf T)) :=
  prog_map (fun m => match m with
                     | One r => andthen (get_recipe_parsetree dir grammar r) (fun t => Return (One t))
                     | ByMt l => andthen (prog_map (get_recipe_parsetree dir grammar) l) (fun ts => Return (ByMt ts))
                     end) recipes.
End Cache.
Arguments One {A}. Arguments ByMt {A}.
