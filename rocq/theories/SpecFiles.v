(** Specifications for operations on files (C47, C48). *)
From Coq Require Import Ascii String ZArith Bool List.
From Verif Require Import PyBase ModelRecipe ModelParser ModelFiles.
Import ListNotations.

(** every name refers to a file *)
Definition sound (d : disk) : Prop := forall n i, node d n = Some i -> (i < length (files d))%nat.

(** file.bak, file.bak.bak, ... *)
Inductive backup_of (n : str) : str -> Prop :=
| bk_one : backup_of n (n ++ $".bak")
| bk_more m : backup_of n m -> backup_of n (m ++ $".bak").

(** nothing that was in the files before is lost: it is under the same name or in a backup *)
Definition nothing_lost (before after : disk) : Prop :=
  forall n c, content before n = Some c -> exists m, (m = n \/ backup_of n m) /\ content after m = Some c.
(** all files except [n] are untouched *)
Definition others_untouched (n : str) (before after : disk) : Prop :=
  forall m c, m <> n -> content before m = Some c -> content after m = Some c.

(** ** The cache *)

(** what may happen to a cache: the compilation of the recipe [r] with the grammar [g], interrupted
    after [steps] system calls (not interrupted if it has fewer) *)
Record event : Type := { ev_grammar : str; ev_recipe : str; ev_steps : nat }.

(** a pickle can be loaded again, an incomplete one cannot *)
Definition faithful_pickle {T} (dump : T -> list str) (load : str -> option T) : Prop :=
  (forall t, load (List.concat (dump t)) = Some t) /\
  (forall t k, (k < length (dump t))%nat -> load (List.concat (firstn k (dump t))) = None).
(** the file names of different recipes differ, unless they compile to the same tree *)
Definition no_collision {T} (compile : str -> str -> result T) (hash : str -> str) (used : str -> str -> Prop) : Prop :=
  forall g r g' r', used g r -> used g' r' -> hash (hash g ++ hash r) = hash (hash g' ++ hash r') -> compile g r = compile g' r'.

(** all files for these recipes are pickles of the compiled recipes *)
Definition complete_cache {T} (compile : str -> str -> result T) (hash : str -> str) (dump : T -> list str)
    (dir : str) (used : str -> str -> Prop) (d : disk) : Prop :=
  sound d /\ forall g r s, used g r -> content d (cache_file hash dir g r) = Some s ->
    exists t, compile g r = Ok t /\ s = List.concat (dump t).
(** the directory after attempts to compile recipes, each interrupted somewhere *)
Definition after_event {T} (compile : str -> str -> result T) hash dump load dir (d : disk) (e : event) : disk :=
  let l := points (get_recipe_parsetree compile hash dump load (Some dir) (ev_grammar e) (ev_recipe e)) d in
  nth (ev_steps e) l (last l d).
Definition after_events {T} (compile : str -> str -> result T) hash dump load dir (evs : list event) (d : disk) : disk :=
  fold_left (after_event compile hash dump load dir) evs d.

(** compiling without a cache: the first exception, or the compiled recipes under the same keys *)
Fixpoint map_values {A B : Type} (f : A -> result B) (l : list (Z * A)) : result (list (Z * B)) :=
  match l with
  | [] => Ok []
  | (k, x) :: r => do y <- f x; do ys <- map_values f r; Ok ((k, y) :: ys)
  end.
Definition compile_all {T : Type} (compile : str -> result T) (l : list (Z * per_mf str)) : result (list (Z * per_mf T)) :=
  map_values (fun m => match m with
                       | One r => do t <- compile r; Ok (One t)
                       | ByMt l => do ts <- map_values compile l; Ok (ByMt ts)
                       end) l.
(** the recipes in a dictionary *)
Definition recipes_in (l : list (Z * per_mf str)) (r : str) : Prop :=
  exists mf, In (mf, One r) l \/ exists rs mt, In (mf, ByMt rs) l /\ In (mt, r) rs.

(** ** Lookup *)

(** a dictionary as Python has it: no key twice *)
Definition recipe_dict (rs : recipes) : Prop :=
  NoDup (map fst rs) /\ forall mf l, In (mf, RByMt l) rs -> NoDup (map fst l).
(** [b] is the recipe for all sections of MF, or the recipe for MF and MT, or there is none for
    this MT and [b] is the recipe for all other sections of MF *)
Definition assigned (rs : recipes) (mf mt : Z) (b : block) : Prop :=
  In (mf, ROne b) rs \/
  exists l, In (mf, RByMt l) rs /\ (In (mt, b) l \/ ((forall b', ~ In (mt, b') l) /\ In ((-1)%Z, b) l)).
