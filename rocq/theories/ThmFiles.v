(** C47, C48: recipes and their cache; writing files and changing files in place. *)
From Coq Require Import Ascii String ZArith Bool Lia List.
From Verif Require Import PyBase PyFloat ModelFortran ModelRecords ModelTape ModelRecipe ModelInterp ModelParser ModelFiles
  SpecFields SpecLibm SpecTape SpecFiles ProofFiles ProofLookup.
Import ListNotations.

(** * C47 *)

(** Every section of the tape is returned as lines if no recipe is assigned to it. If one is and
    the section is selected, the result is what this recipe makes of its lines and a SEND record. *)
Theorem C47_lookup p nofail exc inc o lines d o' :
  field_width (p_wo p) -> r_width (p_ro p) = w_width (p_wo p) -> recipe_dict (p_recipes p) ->
  parse p nofail exc inc o lines = (Ok d, o') ->
  exists d0, split_sections (p_ro p) lines = Ok d0 /\ forall mf mt x, holds d mf mt x ->
    exists ls, holds d0 mf mt ls /\
      ((forall b, ~ assigned (p_recipes p) mf mt b) -> x = Raw ls) /\
      (forall b, assigned (p_recipes p) mf mt b -> selected exc inc mf mt ->
         exists send o1 o2 res,
           parse_recipe (read_env (p_ro p) (p_wo p) (p_depth p)) b o1 (ls ++ [send]) = (res, o2) /\
           match res with
           | Ok y => x = Parsed y
           | Err e => nofail = true /\ is_parser_exception e = true /\ x = Raw (ls ++ [send])
           end).
Proof. exact (parse_lookup p nofail exc inc o lines d o'). Qed.
Print Assumptions C47_lookup.
Theorem C47_find rs mf mt b : recipe_dict rs -> find_recipe rs mf mt = Some b <-> assigned rs mf mt b.
Proof. exact (find_assigned rs mf mt b). Qed.
Print Assumptions C47_find.

Local Open Scope Z_scope.
Local Definition bookkeeping : recipes := [(3, RByMt [(1, BCons ISend BNil); (-1, BNil)]); (1, ROne (BCons IStop BNil))].
Example C47_lookup_example : recipe_dict bookkeeping /\
  assigned bookkeeping 3 1 (BCons ISend BNil) /\ assigned bookkeeping 3 102 BNil /\ assigned bookkeeping 1 451 (BCons IStop BNil) /\ (forall b, ~ assigned bookkeeping 4 1 b).
Proof.
  split; [split; [repeat constructor; cbn; intuition discriminate|]|].
  - intros mf l [[= <- <-]|[[=]|[]]]. repeat constructor; cbn; intuition discriminate.
  - unfold assigned, bookkeeping. split; [|split; [|split]].
    + right. eexists. split; [left; reflexivity|]. left. left. reflexivity.
    + right. eexists. split; [left; reflexivity|]. right. split; [intros b' [[=]|[[=]|[]]]|right; left; reflexivity].
    + left. right. left. reflexivity.
    + intros b [[[=]|[[=]|[]]]|[l [[[=]|[[=]|[]]] _]]].
Qed.
Local Close Scope Z_scope.

(** In what follows, [used] are the grammars and recipes that are used with a cache directory.
    Pickles can be loaded again, an incomplete one cannot, and the file names of different recipes
    differ unless they compile to the same tree. A cache is complete if all files for these
    recipes are pickles of the compiled recipes (SpecFiles.v). *)

(** Undisturbed, compiling all recipes of a dictionary with a complete cache gives exactly what
    compiling without a cache gives, or its exception, and leaves a complete cache. *)
Theorem C47_cache {T : Type} (compile : str -> str -> result T) (hash : str -> str) (dump : T -> list str) (load : str -> option T) dir used :
  faithful_pickle dump load -> no_collision compile hash used ->
  forall g l d, (forall r, recipes_in l r -> used g r) -> complete_cache compile hash dump dir used d ->
  exists d', complete_cache compile hash dump dir used d' /\
    execute (get_recipe_parsetree_dic compile hash dump load (Some dir) g l) d =
    (match compile_all (compile g) l with Ok ts => inl ts | Err e => inr (Raised e) end, d').
Proof. intros [A B] C g l d U. exact (dic_complete compile hash dump load dir used A C g l U d). Qed.
Print Assumptions C47_cache.

(** Whatever attempts to compile recipes were made before and at whatever points they were
    interrupted: a recipe that is obtained is the compiled one. *)
Theorem C47_interrupted {T : Type} (compile : str -> str -> result T) (hash : str -> str) (dump : T -> list str) (load : str -> option T) dir used :
  faithful_pickle dump load -> no_collision compile hash used ->
  forall evs d g r x d', complete_cache compile hash dump dir used d -> Forall (fun e => used (ev_grammar e) (ev_recipe e)) evs -> used g r ->
  execute (get_recipe_parsetree compile hash dump load (Some dir) g r) (after_events compile hash dump load dir evs d) = (x, d') ->
  match x with
  | inl t => compile g r = Ok t
  | inr f => f = BadPickle \/ exists e, f = Raised e /\ compile g r = Err e
  end.
Proof. intros [A B] C. exact (history compile hash dump load dir used A B C). Qed.
Print Assumptions C47_interrupted.

(** But a recipe may become unavailable: if the first attempt is interrupted after the file was
    created, every later attempt fails. *)
Theorem C47_interrupted_refuted {T : Type} (compile : str -> str -> result T) (hash : str -> str) (dump : T -> list str) (load : str -> option T) dir g r t d :
  load [] = None -> sound d -> node d (cache_file hash dir g r) = None -> compile g r = Ok t ->
  exists s, In s (points (get_recipe_parsetree compile hash dump load (Some dir) g r) d) /\
    execute (get_recipe_parsetree compile hash dump load (Some dir) g r) s = (inr BadPickle, s).
Proof. intros L S N C. exact (damaged compile hash dump load dir g r t d S L N C). Qed.
Print Assumptions C47_interrupted_refuted.

(** a world in which the recipes compile to themselves unless they are empty, pickles are a mark,
    the text and a stop character, and hashes the text itself in brackets *)
Local Definition ex_compile (g r : str) : result str := match r with [] => Err ValueError | _ => Ok (g ++ r) end.
Local Definition ex_hash (s : str) : str := s ++ $"|".
Local Definition ex_dump (t : str) : list str := [$"p"; t ++ $"."].
Local Definition ex_load (s : str) : option str :=
  match s with
  | m :: r => match rev r with x :: t => if chr_eqb x "." then Some (rev t) else None | [] => None end
  | [] => None
  end.
Local Definition ex_used (g r : str) : Prop := In (g, r) [($"G", $"a"); ($"G", $"b"); ($"H", $"a"); ($"G", [])].
Local Definition ex_cache : disk := {| names := [($"/c/G|a||.pkl", 1%nat); ($"/c/other", 0%nat)]; files := [$"x"; $"pGa."] |}.
Example C47_cache_example :
  faithful_pickle ex_dump ex_load /\ no_collision ex_compile ex_hash ex_used /\ complete_cache ex_compile ex_hash ex_dump ($"/c/") ex_used ex_cache /\
  (forall r, recipes_in [(1%Z, One ($"a")); (3%Z, ByMt [(1%Z, $"b"); ((-1)%Z, $"a")])] r -> ex_used ($"G") r) /\
  fst (execute (get_recipe_parsetree_dic ex_compile ex_hash ex_dump ex_load (Some ($"/c/")) ($"G") [(1%Z, One ($"a")); (3%Z, ByMt [(1%Z, $"b"); ((-1)%Z, $"a")])]) ex_cache) =
    inl [(1%Z, One ($"Ga")); (3%Z, ByMt [(1%Z, $"Gb"); ((-1)%Z, $"Ga")])].
Proof.
  split; [split|split; [|split; [|split]]].
  - intros t. change (ex_load ("p"%char :: (t ++ ["."%char]) ++ []) = Some t). rewrite app_nil_r. unfold ex_load.
    rewrite rev_app_distr. change (rev ["."%char] ++ rev t) with ("."%char :: rev t). cbv iota beta. change (chr_eqb "." ".") with true. cbv iota. rewrite rev_involutive. reflexivity.
  - intros t [|[|k]] H; [reflexivity|reflexivity|cbn in H; lia].
  - intros g r g' r' U U'. repeat (destruct U as [[= <- <-]|U]); try destruct U;
      repeat (destruct U' as [[= <- <-]|U']); try destruct U'; first [intros _; reflexivity|vm_compute; discriminate].
  - split.
    + intros n i. unfold node, ex_cache. cbn [names nget files length]. destruct (str_eqb n _); [intros [= <-]; lia|]. destruct (str_eqb n _); [intros [= <-]; lia|discriminate].
    + intros g r s U. repeat (destruct U as [[= <- <-]|U]); try destruct U; vm_compute; intros E; [|discriminate E..].
      injection E as <-. eexists. split; reflexivity.
  - intros r [mf [H|[rs [mt [H I]]]]].
    + destruct H as [[= _ <-]|[H|[]]]; [left; reflexivity|discriminate].
    + destruct H as [[=]|[[= _ <-]|[]]]. destruct I as [[= _ <-]|[[= _ <-]|[]]]; [right; left|left]; reflexivity.
  - vm_compute. reflexivity.
Qed.
(** the first of three attempts is interrupted when the file was created but is still empty *)
Example C47_interrupted_example :
  let evs := [{| ev_grammar := $"G"; ev_recipe := $"b"; ev_steps := 2 |}; {| ev_grammar := $"G"; ev_recipe := $"b"; ev_steps := 9 |};
              {| ev_grammar := $"H"; ev_recipe := $"a"; ev_steps := 9 |}] in
  let d := after_events ex_compile ex_hash ex_dump ex_load ($"/c/") evs ex_cache in
  Forall (fun e => ex_used (ev_grammar e) (ev_recipe e)) evs /\
  fst (execute (get_recipe_parsetree ex_compile ex_hash ex_dump ex_load (Some ($"/c/")) ($"H") ($"a")) d) = inl ($"Ha") /\
  fst (execute (get_recipe_parsetree ex_compile ex_hash ex_dump ex_load (Some ($"/c/")) ($"G") ($"b")) d) = inr BadPickle.
Proof. split; [repeat (constructor; [vm_compute; tauto|]); constructor|]. split; vm_compute; reflexivity. Qed.

(** * C48 *)

(** writefile, of either parser: without overwrite an existing file makes it fail, and no file that
    exists is changed, at whatever point it is interrupted. *)
Theorem C48_no_overwrite cpp n out d : sound d ->
  (content d n <> None -> execute (writefile cpp n out false) d = (inr Exists, d)) /\
  forall s, In s (points (writefile cpp n out false) d) -> forall m c, content d m = Some c -> content s m = Some c.
Proof.
  intros S. split.
  - intros C. apply writefile_exists. intros E. apply C. unfold content. rewrite E. reflexivity.
  - intros s H. exact (proj2 (writefile_points cpp n out d S s H)).
Qed.
Print Assumptions C48_no_overwrite.
(** If there is no such file, the whole text is written. *)
Theorem C48_writes cpp n l d : node d n = None ->
  exists d', execute (writefile cpp n (l, None) false) d = (inl tt, d') /\ content d' n = Some (List.concat l).
Proof. exact (writefile_done cpp n l d). Qed.
Print Assumptions C48_writes.
(** The Python writefile leaves all files as they are if it fails, also with overwrite. *)
Theorem C48_failed_write n out overwrite d f d' : sound d -> execute (writefile false n out overwrite) d = (inr f, d') -> d' = d.
Proof. exact (writefile_py_failure n out overwrite d f d'). Qed.
Print Assumptions C48_failed_write.

(** The commands that change files, with backups: wherever they are interrupted, every file's old
    content is under its name or in a backup, and the files that are not named in the command,
    older backups among them, are untouched. *)
Theorem C48_replace cpp edit source l d : sound d -> forall s, In s (points (replace cpp true edit source l) d) ->
  nothing_lost d s /\ (forall m c, ~ In m l -> content d m = Some c -> content s m = Some c).
Proof. intros S s H. exact (proj2 (replace_points cpp edit source l d S s H)). Qed.
Print Assumptions C48_replace.
Theorem C48_modify cpp edit file d : sound d -> forall s, In s (points (modify_file cpp true edit file) d) ->
  nothing_lost d s /\ others_untouched file d s.
Proof. intros S s H. exact (proj2 (modify_points cpp edit file d S s H)). Qed.
Print Assumptions C48_modify.
(** At the end the new text is in place, and the old one under a name that was not in use. *)
Theorem C48_modified cpp edit file d d' t l : sound d -> content d file = Some t -> edit t = Ok (l, None) ->
  execute (modify_file cpp true edit file) d = (inl tt, d') ->
  content d' file = Some (List.concat l) /\ exists m, backup_of file m /\ content d m = None /\ content d' m = Some t.
Proof. exact (modify_done cpp edit file d d' t l). Qed.
Print Assumptions C48_modified.
(** If the file cannot be parsed or changed, nothing happens. *)
Theorem C48_rejected cpp backup edit file d t e : content d file = Some t -> edit t = Err e ->
  execute (modify_file cpp backup edit file) d = (inr (Raised e), d).
Proof. intros C E. exact (modify_raises cpp edit file d t e C E backup). Qed.
Print Assumptions C48_rejected.

Local Definition ex_disk : disk :=
  {| names := [($"a.endf", 0%nat); ($"b.endf", 1%nat); ($"a.endf.bak", 2%nat)]; files := [$"old"; $"b"; $"older"] |}.
Local Definition ex_edit (s : str) : result output := Ok ([$"ne"; $"w"], None).
Lemma ex_sound : sound ex_disk.
Proof.
  intros n i. unfold node, ex_disk. cbn [names nget files length].
  repeat match goal with |- context [if str_eqb ?a ?b then _ else _] => destruct (str_eqb a b); [intros [= <-]; lia|] end. discriminate.
Qed.
Example C48_example : sound ex_disk /\
  (let d := snd (execute (modify_file false true ex_edit ($"a.endf")) ex_disk) in
   content d ($"a.endf") = Some ($"new") /\ content d ($"a.endf.bak") = Some ($"older") /\ content d ($"a.endf.bak.bak") = Some ($"old") /\
   content d ($"b.endf") = Some ($"b")) /\
  length (points (modify_file false true ex_edit ($"a.endf")) ex_disk) = 9%nat /\
  map (fun d => content d ($"a.endf")) (points (modify_file true true ex_edit ($"a.endf")) ex_disk) =
    [Some ($"old"); Some ($"old"); Some ($"old"); Some ($"old"); None; None; Some []; Some ($"ne"); Some ($"new")] /\
  execute (writefile false ($"b.endf") ([$"z"], None) false) ex_disk = (inr Exists, ex_disk).
Proof. split; [exact ex_sound|]. vm_compute. repeat split. Qed.

(** Without backups the old content is lost while the new one is written, for every file and text. *)
Theorem C48_no_backup_refuted cpp edit file d t l : sound d -> content d file = Some t -> t <> [] -> edit t = Ok (l, None) ->
  (forall m, m <> file -> content d m <> Some t) ->
  exists s, In s (points (modify_file cpp false edit file) d) /\ forall m, content s m <> Some t.
Proof. exact (no_backup_lost cpp edit file d t l). Qed.
Print Assumptions C48_no_backup_refuted.
Example C48_no_backup_example : content ex_disk ($"a.endf") = Some ($"old") /\ forall m, m <> $"a.endf" -> content ex_disk m <> Some ($"old").
Proof.
  split; [reflexivity|]. intros m N. unfold content, node, ex_disk. cbn [names nget files].
  destruct (str_eqb m ($"a.endf")) eqn:E; [apply ProofPyBase.str_eqb_eq in E; contradiction|].
  repeat match goal with |- context [if str_eqb ?a ?b then _ else _] => destruct (str_eqb a b); [vm_compute; discriminate|] end. discriminate.
Qed.
(** The C++ writefile with overwrite replaces an existing file although the data cannot be written. *)
Theorem C48_failed_write_refuted : exists d n out f d', sound d /\ content d n = Some ($"old") /\
  execute (writefile true n out true) d = (inr f, d') /\ content d' n = Some ($"ha").
Proof. exists ex_disk, ($"a.endf"), ([$"ha"], Some KeyError), (Raised KeyError). eexists. split; [exact ex_sound|]. split; [reflexivity|]. vm_compute. split; reflexivity. Qed.
Print Assumptions C48_failed_write_refuted.
(** A command that fails when it writes leaves no file under the name. *)
Theorem C48_failed_command_refuted : exists d file edit f d', sound d /\ content d file = Some ($"old") /\
  execute (modify_file false true edit file) d = (inr f, d') /\ content d' file = None /\ content d' (file ++ $".bak.bak") = Some ($"old").
Proof.
  exists ex_disk, ($"a.endf"), (fun _ => Ok ([], Some KeyError)), (Raised KeyError). eexists. split; [exact ex_sound|]. split; [reflexivity|].
  vm_compute. repeat split.
Qed.
Print Assumptions C48_failed_command_refuted.
(** Two processes that write the same new file: both succeed, and the text of one is lost. *)
Theorem C48_race_refuted : forall cpp, exists d n sched, sound d /\ content d n = None /\
  exists d', run_both sched (writefile cpp n ([$"one"], None) false) (writefile cpp n ([$"two"], None) false) d = (Return tt, Return tt, d') /\
    forall m, content d' m <> Some ($"one").
Proof.
  intros cpp. exists ex_disk, ($"c.endf"), [true; false; true; true; false; false]. split; [exact ex_sound|]. split; [reflexivity|].
  destruct cpp; (eexists; split; [vm_compute; reflexivity|]); intros m; unfold content, node; cbn [names nget files];
    repeat match goal with |- context [if str_eqb ?a ?b then _ else _] => destruct (str_eqb a b); [vm_compute; discriminate|] end; discriminate.
Qed.
Print Assumptions C48_race_refuted.
(** A command interrupted while it makes the backup, then repeated without backups: the backup is
    changed with the file. *)
Theorem C48_shared_backup_refuted : exists d file edit s d', sound d /\ content d file = Some ($"old") /\
  In s (points (modify_file false true edit file) d) /\ content s (file ++ $".bak.bak") = Some ($"old") /\
  execute (modify_file false false edit file) s = (inl tt, d') /\ content d' (file ++ $".bak.bak") = Some ($"new").
Proof.
  exists ex_disk, ($"a.endf"), ex_edit. eexists. eexists. split; [exact ex_sound|]. split; [reflexivity|].
  split; [vm_compute; right; right; right; left; reflexivity|]. vm_compute. repeat split.
Qed.
Print Assumptions C48_shared_backup_refuted.
