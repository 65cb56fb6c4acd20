(** Proofs about the options and commands of the command line (C66). *)
From Coq Require Import Ascii String ZArith Bool Lia List.
From Verif Require Import PyBase ProofPyBase PyFloat ModelFortran ModelRecords ModelNum ModelRecipe ModelInterp ModelParser ModelPath ModelCppRead ModelCppParser ModelCli.
From Verif Require Import ModelTape SpecInterp SpecPath SpecFields SpecLibm SpecTape SpecCli.
From Verif Require Import ProofFields ProofTape ProofTapeWrite ProofTapeParse ProofInterpOpt ProofPath ProofCppRead ProofCppParser.
Import ListNotations.
Open Scope Z_scope.

(** ** Options *)
Lemma oget_app n : forall a b, oget n (a ++ b) = match oget n a with Some v => Some v | None => oget n b end.
Proof. induction a as [|[m v] a IH]; intros b; cbn [app oget]; [reflexivity|]. destruct (str_eqb n m); auto. Qed.

Lemma oget_flat n (g : str * bool -> option oval) : forall l, NoDup (map fst l) ->
  oget n (flat_map (fun p => match g p with Some v => [(fst p, v)] | None => [] end) l) =
  match find (fun p => str_eqb n (fst p)) l with Some p => g p | None => None end.
Proof.
  induction l as [|[m b] l IH]; intros N; [reflexivity|]. cbn [flat_map find map fst] in *. inversion N as [|? ? N1 N2]; subst.
  rewrite oget_app, (IH N2). destruct (str_eqb n m) eqn:E.
  - apply str_eqb_eq in E. subst m. assert (F : find (fun p : str * bool => str_eqb n (fst p)) l = None).
    { destruct (find _ l) as [p|] eqn:F; [|reflexivity]. apply find_some in F as [I F]. apply str_eqb_eq in F. subst n. exfalso. apply N1. now apply in_map. }
    rewrite F. destruct (g (n, b)) as [v|]; cbn [oget fst]; [now rewrite (proj2 (str_eqb_eq n n) eq_refl)|reflexivity].
  - destruct (g (m, b)) as [v|]; cbn [oget fst]; [rewrite E|]; reflexivity.
Qed.

Definition entry (cpp : bool) (args : odict) (p : str * bool) : option oval :=
  if negb cpp || snd p then given (oget (fst p) args) else None.
Lemma parser_args_flat cpp args : parser_args cpp args = flat_map (fun p => match entry cpp args p with Some v => [(fst p, v)] | None => [] end) cli_options.
Proof.
  unfold parser_args. apply flat_map_ext. intros [m b]. unfold entry. cbn [fst snd].
  destruct (oget m args) as [[]|]; destruct (negb cpp || b); reflexivity.
Qed.
Lemma cli_nodup : NoDup (map fst cli_options).
Proof.
  assert (H : forall l : list str, (fix f l := match l with [] => true | x :: r => negb (existsb (str_eqb x) r) && f r end) l = true -> NoDup l).
  { induction l as [|x r IH]; intros H; [constructor|]. apply andb_true_iff in H as [H1 H2]. constructor; [|auto].
    intros I. apply negb_true_iff in H1. rewrite (proj2 (existsb_exists _ _)) in H1; [discriminate|]. exists x. split; [exact I|]. now apply str_eqb_eq. }
  apply H. vm_compute. reflexivity.
Qed.
Lemma oget_args cpp args n : oget n (parser_args cpp args) =
  match find (fun p => str_eqb n (fst p)) cli_options with Some p => entry cpp args p | None => None end.
Proof. rewrite parser_args_flat. exact (oget_flat n (entry cpp args) cli_options cli_nodup). Qed.
Lemma names_same : map fst cli_options = cli_names.
Proof. reflexivity. Qed.
Lemma asked_merge args insist n : given (oget n (merge args insist)) = asked args insist n.
Proof. unfold merge, asked. rewrite oget_app. destruct (oget n insist); reflexivity. Qed.

Lemma find_name n p : find (fun p => str_eqb n (fst p)) cli_options = Some p -> fst p = n /\ In p cli_options.
Proof. intros F. apply find_some in F as [I F]. apply str_eqb_eq in F. auto. Qed.
Lemma find_none n : find (fun p => str_eqb n (fst p)) cli_options = None <-> ~ In n cli_names.
Proof.
  rewrite <- names_same. split.
  - intros F I. apply in_map_iff in I as (p & <- & I). pose proof (find_none _ _ F p I) as H. cbn beta in H. rewrite (proj2 (str_eqb_eq _ _) eq_refl) in H. discriminate.
  - intros N. destruct (find _ cli_options) as [p|] eqn:F; [|reflexivity]. apply find_name in F as [<- I]. exfalso. apply N. now apply in_map.
Qed.
Lemma find_in n : In n cli_names -> exists b, find (fun p => str_eqb n (fst p)) cli_options = Some (n, b) /\ In (n, b) cli_options.
Proof.
  intros I. destruct (find (fun p => str_eqb n (fst p)) cli_options) as [[m b]|] eqn:F; [|apply find_none in F; contradiction].
  apply find_name in F as [E J]. cbn in E. subst m. eauto.
Qed.

Lemma bind_ok sig cpp args : (forall n v, oget n (parser_args cpp args) = Some v -> oget n sig <> None) ->
  bind_args sig [] (parser_args cpp args) <> None.
Proof.
  intros H. unfold bind_args. cbn [length]. change (length sig <? 0)%nat with false. cbn iota beta.
  assert (C : combine (map fst sig) (@nil oval) = []) by (destruct (map fst sig); reflexivity). rewrite C.
  match goal with |- (if ?b then _ else _) <> _ => assert (E : b = true) end; [|rewrite E; discriminate].
  apply forallb_forall. intros [n v] I. cbn [fst oget].
  assert (G : oget n (parser_args cpp args) <> None).
  { clear H C sig. induction (parser_args cpp args) as [|[m w] l IH]; [contradiction|]. cbn [oget]. destruct (str_eqb n m) eqn:E; [discriminate|].
    destruct I as [I|I]; [|auto]. inversion I; subst. rewrite (proj2 (str_eqb_eq n n) eq_refl) in E. discriminate. }
  destruct (oget n (parser_args cpp args)) as [w|] eqn:F; [|contradiction]. specialize (H n w F). destruct (oget n sig); [reflexivity|contradiction].
Qed.
Lemma python_total args : bind_args py_signature [] (parser_args false args) <> None.
Proof.
  apply bind_ok. intros n v. rewrite oget_args. destruct (find _ cli_options) as [p|] eqn:F; [|discriminate]. intros _.
  apply find_name in F as [<- I].
  assert (A : forallb (fun p : str * bool => match oget (fst p) py_signature with Some _ => true | None => false end) cli_options = true) by (vm_compute; reflexivity).
  rewrite forallb_forall in A. specialize (A p I). destruct (oget (fst p) py_signature); [discriminate|discriminate].
Qed.

Lemma python_asked args insist a : bind_args py_signature [] (parser_args false (merge args insist)) = Some a -> as_asked py_signature a args insist.
Proof.
  intros B n d G. rewrite (bind_value _ _ _ _ _ B G), oget_args. split; intros I.
  - destruct (find_in n I) as (b & -> & _). unfold entry. cbn [negb orb fst]. now rewrite asked_merge.
  - now rewrite (proj2 (find_none n) I).
Qed.
Lemma cpp_supported n d b : oget n cpp_signature = Some d -> In (n, b) cli_options -> b = true.
Proof.
  intros G I.
  assert (A : forallb (fun p : str * bool => match oget (fst p) cpp_signature with Some _ => snd p | None => true end) cli_options = true) by (vm_compute; reflexivity).
  rewrite forallb_forall in A. specialize (A _ I). cbn [fst snd] in A. now rewrite G in A.
Qed.
Lemma cpp_asked args insist a : bind_args cpp_signature [] (parser_args true (merge args insist)) = Some a -> as_asked cpp_signature a args insist.
Proof.
  intros B n d G. rewrite (bind_value _ _ _ _ _ B G), oget_args. split; intros I.
  - destruct (find_in n I) as (b & -> & J). rewrite (cpp_supported n d b G J). unfold entry. cbn [negb orb fst snd]. now rewrite asked_merge.
  - now rewrite (proj2 (find_none n) I).
Qed.

Theorem parser_chosen loads no_cpp args insist :
  exists b, get_endf_parser loads no_cpp args insist = Some b /\
  match b with
  | UsePython a => as_asked py_signature a args insist
  | UseCpp a => no_cpp = false /\ asked args insist $"fuzzy_matching" = None /\ loads a = true /\ as_asked cpp_signature a args insist
  end.
Proof.
  unfold get_endf_parser.
  assert (PY : exists b, option_map UsePython (bind_args py_signature [] (parser_args false (merge args insist))) = Some b /\
    match b with UsePython a => as_asked py_signature a args insist | UseCpp a => False end).
  { destruct (bind_args py_signature [] _) as [a|] eqn:B; [|now apply python_total in B]. exists (UsePython a). split; [reflexivity|]. now apply python_asked. }
  destruct PY as ([a|a] & E & A); [|contradiction]. rewrite E. clear E.
  destruct no_cpp; [exists (UsePython a); auto|].
  destruct (bind_args cpp_signature [] (parser_args true (merge args insist))) as [c|] eqn:B; [|exists (UsePython a); auto].
  destruct (loads c) eqn:L; [|exists (UsePython a); auto].
  exists (UseCpp c). split; [reflexivity|]. split; [reflexivity|]. split; [|split; [exact L|now apply cpp_asked]].
  destruct (asked args insist $"fuzzy_matching") as [v|] eqn:F; [|reflexivity]. exfalso.
  apply (bind_known cpp_signature [] _ c $"fuzzy_matching" v B); [|reflexivity].
  rewrite oget_args. change (entry true (merge args insist) ($"fuzzy_matching", true) = Some v). unfold entry. cbn [negb orb fst snd]. now rewrite asked_merge.
Qed.
Theorem cpp_chosen loads args insist : asked args insist $"fuzzy_matching" = None -> (forall a, loads a = true) ->
  exists a, get_endf_parser loads false args insist = Some (UseCpp a).
Proof.
  intros F L. unfold get_endf_parser.
  destruct (bind_args cpp_signature [] (parser_args true (merge args insist))) as [c|] eqn:B; [rewrite L; eauto|].
  exfalso. revert B. apply bind_ok. intros n v. rewrite oget_args. destruct (find _ cli_options) as [p|] eqn:G; [|discriminate].
  apply find_name in G as [<- I]. unfold entry. rewrite asked_merge. cbn [negb orb]. intros E N.
  assert (A : forallb (fun p : str * bool => match oget (fst p) cpp_signature with Some _ => true | None => negb (snd p) || str_eqb (fst p) $"fuzzy_matching" end) cli_options = true) by (vm_compute; reflexivity).
  rewrite forallb_forall in A. specialize (A p I). rewrite N in A. destruct (snd p); [|discriminate]. cbn [negb orb] in A.
  apply str_eqb_eq in A. rewrite A, F in E. discriminate.
Qed.

(** ** Sections that are parsed *)
Section Selected.
  Context {P D : Type} (pr : P -> Z -> Z -> list str -> result D * P) (has : Z -> Z -> bool) (ro : ropts) (wo : wopts) (inc : list selitem) (o : P).
  Hypothesis K : forall mf mt ls d q, pr o mf mt ls = (Ok d, q) -> q = o.
  Definition skipped mf mt := should_skip_section mf mt None (Some inc).

  Lemma section_sel mf mt ls x q : parse_section pr has ro wo false None None o mf mt ls = (Ok x, q) ->
    q = o /\ exists y, parse_section pr has ro wo false None (Some inc) o mf mt ls = (Ok y, o) /\ (skipped mf mt = false -> x = y).
  Proof.
    unfold parse_section, skipped. destruct (do l0 <- get_line ls 0; read_ctrl ro l0) as [c|]; [|discriminate].
    change (should_skip_section mf mt None None) with false. cbn [negb]. rewrite andb_true_r. destruct (has mf mt); cbn [andb].
    - destruct (write_send wo false c) as [s|]; [|discriminate]. destruct (pr o mf mt (ls ++ s)) as [[d|e] p'] eqn:E.
      + intros H. injection H as <- <-. apply K in E as ->. split; [reflexivity|].
        destruct (should_skip_section mf mt None (Some inc)); cbn [negb]; eexists; (split; [reflexivity|]); [discriminate|reflexivity].
      + rewrite andb_false_r. discriminate.
    - intros H. injection H as <- <-. split; [reflexivity|]. eexists. split; [reflexivity|]. reflexivity.
  Qed.
  Definition rel2 (mf : Z) (x y : Z * section D) := fst x = fst y /\ (skipped mf (fst x) = false -> snd x = snd y).
  Lemma mts_sel mf : forall mts d q, parse_mts pr has ro wo false None None o mf mts = (Ok d, q) ->
    q = o /\ exists d', parse_mts pr has ro wo false None (Some inc) o mf mts = (Ok d', o) /\ Forall2 (rel2 mf) d d'.
  Proof.
    induction mts as [|[mt ls] r IH]; intros d q; cbn [parse_mts].
    - intros H. injection H as <- <-. split; [reflexivity|]. eexists. split; [reflexivity|constructor].
    - destruct (parse_section pr has ro wo false None None o mf mt ls) as [[x|e] p1] eqn:E; [|discriminate].
      apply section_sel in E as (-> & y & E & S). rewrite E.
      destruct (parse_mts pr has ro wo false None None o mf r) as [[z|e] p2] eqn:E2; [|discriminate].
      destruct (IH z p2 eq_refl) as (-> & z' & E3 & F). rewrite E3. intros H. injection H as <- <-. split; [reflexivity|]. eexists. split; [reflexivity|].
      constructor; [split; [reflexivity|exact S]|exact F].
  Qed.
  Definition rel1 (a b : Z * list (Z * section D)) := fst a = fst b /\ Forall2 (rel2 (fst a)) (snd a) (snd b).
  Lemma mfs_sel : forall mfs d q, parse_mfs pr has ro wo false None None o mfs = (Ok d, q) ->
    q = o /\ exists d', parse_mfs pr has ro wo false None (Some inc) o mfs = (Ok d', o) /\ Forall2 rel1 d d'.
  Proof.
    induction mfs as [|[mf ls] r IH]; intros d q; cbn [parse_mfs].
    - intros H. injection H as <- <-. split; [reflexivity|]. eexists. split; [reflexivity|constructor].
    - destruct (parse_mts pr has ro wo false None None o mf ls) as [[x|e] p1] eqn:E; [|discriminate].
      apply mts_sel in E as (-> & y & E & S). rewrite E.
      destruct (parse_mfs pr has ro wo false None None o r) as [[z|e] p2] eqn:E2; [|discriminate].
      destruct (IH z p2 eq_refl) as (-> & z' & E3 & F). rewrite E3. intros H. injection H as <- <-. split; [reflexivity|]. eexists. split; [reflexivity|].
      constructor; [split; [reflexivity|exact S]|exact F].
  Qed.
  Lemma tape_sel lines d q : parse_tape pr has ro wo false None None o lines = (Ok d, q) ->
    q = o /\ exists d', parse_tape pr has ro wo false None (Some inc) o lines = (Ok d', o) /\ Forall2 rel1 d d'.
  Proof. unfold parse_tape. destruct (split_sections ro lines); [apply mfs_sel|discriminate]. Qed.
End Selected.

(** sections that are not selected stay lists of lines *)
Section Verbatim.
  Context {P D : Type} (pr : P -> Z -> Z -> list str -> result D * P) (has : Z -> Z -> bool) (ro : ropts) (wo : wopts) (nofail : bool) (inc : list selitem).
  Definition raw2 (mf : Z) (x : Z * list str) (y : Z * section D) := fst x = fst y /\ (should_skip_section mf (fst x) None (Some inc) = true -> snd y = Raw (snd x)).
  Lemma mts_raw mf : forall mts p d q, parse_mts pr has ro wo nofail None (Some inc) p mf mts = (Ok d, q) -> Forall2 (raw2 mf) mts d.
  Proof.
    induction mts as [|[mt ls] r IH]; intros p d q; cbn [parse_mts]; [intros H; injection H as <- <-; constructor|].
    destruct (parse_section pr has ro wo nofail None (Some inc) p mf mt ls) as [[x|e] p1] eqn:E; [|discriminate].
    destruct (parse_mts pr has ro wo nofail None (Some inc) p1 mf r) as [[z|e] p2] eqn:E2; [|discriminate].
    intros H. injection H as <- <-. constructor; [|eauto]. split; [reflexivity|]. cbn [fst snd]. intros S. revert E. unfold parse_section. rewrite S. cbn [negb].
    rewrite andb_false_r. destruct (do l0 <- get_line ls 0; read_ctrl ro l0); intros H; [now injection H as <- _|discriminate].
  Qed.
  Definition raw1 (a : Z * list (Z * list str)) (b : Z * list (Z * section D)) := fst a = fst b /\ Forall2 (raw2 (fst a)) (snd a) (snd b).
  Lemma mfs_raw : forall mfs p d q, parse_mfs pr has ro wo nofail None (Some inc) p mfs = (Ok d, q) -> Forall2 raw1 mfs d.
  Proof.
    induction mfs as [|[mf ls] r IH]; intros p d q; cbn [parse_mfs]; [intros H; injection H as <- <-; constructor|].
    destruct (parse_mts pr has ro wo nofail None (Some inc) p mf ls) as [[x|e] p1] eqn:E; [|discriminate].
    destruct (parse_mfs pr has ro wo nofail None (Some inc) p1 r) as [[z|e] p2] eqn:E2; [|discriminate].
    intros H. injection H as <- <-. constructor; [|eauto]. split; [reflexivity|]. exact (mts_raw _ _ _ _ _ E).
  Qed.
End Verbatim.

(** ** Objects *)
Lemma dget_zget {A} (g : A -> val) k : forall l : list (Z * A),
  dget (KInt k) (map (fun s => (KInt (fst s), g (snd s))) l) = option_map g (ModelTape.zget k l).
Proof. induction l as [|[j x] l IH]; [reflexivity|]. cbn [map dget fst snd key_eqb ModelTape.zget]. destruct (k =? j); [reflexivity|exact IH]. Qed.
Lemma dset_zset {A} (g : A -> val) k v : forall l : list (Z * A),
  dset (KInt k) (g v) (map (fun s => (KInt (fst s), g (snd s))) l) = map (fun s => (KInt (fst s), g (snd s))) (zset k v l).
Proof. induction l as [|[j x] l IH]; [reflexivity|]. cbn [map dset fst snd key_eqb zset]. destruct (k =? j); cbn [map fst snd]; [reflexivity|]. now rewrite IH. Qed.
Definition sub_object (l : mtdic (section dict)) : val := VDict (map (fun s => (KInt (fst s), section_object (snd s))) l).
Lemma as_object_sub d : as_object d = VDict (map (fun f => (KInt (fst f), sub_object (snd f))) d).
Proof. reflexivity. Qed.
Lemma lookup_one d mf : path_lookup [KInt mf] (as_object d) = match ModelTape.zget mf d with Some s => Ok (sub_object s) | None => Err KeyError end.
Proof. rewrite as_object_sub. cbn [path_lookup item]. rewrite dget_zget. destruct (ModelTape.zget mf d); reflexivity. Qed.
Lemma lookup_more d mf mt r : path_lookup (KInt mf :: KInt mt :: r) (as_object d) =
  match lookup2 d mf mt with Some s => path_lookup r (section_object s) | None => Err KeyError end.
Proof.
  rewrite as_object_sub. cbn [path_lookup item]. rewrite dget_zget. unfold lookup2. destruct (ModelTape.zget mf d) as [s|]; [|reflexivity].
  cbn [option_map bind item]. unfold sub_object. cbn [item]. rewrite dget_zget. destruct (ModelTape.zget mt s); reflexivity.
Qed.

Lemma strings_ok : forall ls, strings_of (map VStr ls) = Ok ls.
Proof. induction ls as [|l ls IH]; [reflexivity|]. cbn [map strings_of]. now rewrite IH. Qed.
Lemma strings_back : forall l ls, strings_of l = Ok ls -> map VStr ls = l.
Proof.
  induction l as [|v l IH]; intros ls; cbn [strings_of]; [intros H; injection H as <-; reflexivity|].
  destruct v; try discriminate. destruct (strings_of l) as [x|]; [|discriminate]. cbn [bind]. intros H. injection H as <-. cbn [map]. now rewrite (IH x eq_refl).
Qed.
Lemma section_ok' s : section_of (section_object s) = Ok s.
Proof. destruct s as [ls|d]; [|reflexivity]. cbn [section_object section_of]. now rewrite strings_ok. Qed.
Lemma section_back v s : section_of v = Ok s -> section_object s = v.
Proof.
  destruct v; try discriminate; cbn [section_of].
  - destruct (strings_of l) as [ls|] eqn:E; [|discriminate]. cbn [bind]. intros H. injection H as <-. cbn [section_object]. now rewrite (strings_back _ _ E).
  - intros H. injection H as <-. reflexivity.
Qed.
Lemma int_keyed_ok {A} (f : val -> result A) g : (forall a, f (g a) = Ok a) -> forall l, int_keyed f (map (fun s : Z * A => (KInt (fst s), g (snd s))) l) = Ok l.
Proof. intros H. induction l as [|[k a] l IH]; [reflexivity|]. cbn [map int_keyed fst snd]. now rewrite H, IH. Qed.
Lemma int_keyed_back {A} (f : val -> result A) g : (forall v a, f v = Ok a -> g a = v) -> forall d l, int_keyed f d = Ok l -> map (fun s : Z * A => (KInt (fst s), g (snd s))) l = d.
Proof.
  intros H. induction d as [|[[k|k] v] d IH]; intros l; cbn [int_keyed]; [intros E; injection E as <-; reflexivity| |discriminate].
  destruct (f v) as [a|] eqn:F; [|discriminate]. cbn [bind]. destruct (int_keyed f d) as [y|]; [|discriminate]. cbn [bind]. intros E. injection E as <-.
  cbn [map fst snd]. now rewrite (H _ _ F), (IH y eq_refl).
Qed.
Lemma file_ok' d : file_of (as_object d) = Ok d.
Proof.
  rewrite as_object_sub. unfold file_of. apply int_keyed_ok. intros a. unfold sub_object. apply int_keyed_ok. exact section_ok'.
Qed.
Lemma file_back v d : file_of v = Ok d -> as_object d = v.
Proof.
  rewrite as_object_sub. destruct v; try discriminate. cbn [file_of]. intros H. f_equal. revert H. apply int_keyed_back. intros v a.
  destruct v; try discriminate. intros H. unfold sub_object. f_equal. revert H. apply int_keyed_back. exact section_back.
Qed.

(** ** show *)
Lemma rel2_zget inc mf (x y : list (Z * section dict)) mt : Forall2 (rel2 inc mf) x y -> skipped inc mf mt = false -> ModelTape.zget mt x = ModelTape.zget mt y.
Proof.
  intros F S. induction F as [|[a u] [b v] x y [E R] F IH]; [reflexivity|]. cbn [fst snd] in *. subst b. cbn [ModelTape.zget].
  destruct (Z.eqb_spec mt a) as [->|]; [now rewrite (R S)|exact IH].
Qed.
Lemma rel2_all inc mf (x y : list (Z * section dict)) : Forall2 (rel2 inc mf) x y -> (forall mt, skipped inc mf mt = false) -> x = y.
Proof.
  intros F S. induction F as [|[a u] [b v] x y [E R] F IH]; [reflexivity|]. cbn [fst snd] in *. subst b. now rewrite (R (S a)), IH.
Qed.
Lemma rel1_zget inc (d d' : mfdic (section dict)) mf : Forall2 (rel1 inc) d d' ->
  match ModelTape.zget mf d, ModelTape.zget mf d' with
  | Some x, Some y => Forall2 (rel2 inc mf) x y
  | None, None => True
  | _, _ => False
  end.
Proof.
  intros F. induction F as [|[a u] [b v] x y [E R] F IH]; [exact Logic.I|]. cbn [fst snd] in *. subst b. cbn [ModelTape.zget].
  destruct (Z.eqb_spec mf a) as [->|]; [exact R|exact IH].
Qed.

Theorem show_same p o path lines d o1 : (exists mf mt, leads_to path mf mt) -> parse p false None None o lines = (Ok d, o1) ->
  show p o path lines = path_lookup path (as_object d).
Proof.
  intros (mf0 & mt0 & L) H.
  assert (K : forall mf mt ls d q, parse_one p o mf mt ls = (Ok d, q) -> q = o) by (intros; eapply parse_one_opts; eassumption).
  assert (G : forall inc, exists d', parse p false None (Some inc) o lines = (Ok d', o) /\ Forall2 (rel1 inc) d d').
  { intros inc. apply (tape_sel (parse_one p) _ _ _ inc o K) in H as (_ & d' & E & F). exists d'. split; [exact E|exact F]. }
  destruct path as [|[a|a] [|[b|b] r]]; cbn [leads_to] in L; try contradiction; unfold show.
  - cbn [determine_include int_of_key bind]. destruct (G [SMf a]) as (d' & -> & F). cbn [fst bind]. rewrite !lookup_one.
    pose proof (rel1_zget _ _ _ a F) as R. destruct (ModelTape.zget a d) as [x|]; destruct (ModelTape.zget a d') as [y|]; try contradiction; [|reflexivity].
    rewrite (rel2_all _ _ _ _ R); [reflexivity|]. intros mt. unfold skipped. cbn. now rewrite Z.eqb_refl.
  - cbn [determine_include int_of_key bind]. destruct (G [SMfMt a b]) as (d' & -> & F). cbn [fst bind]. rewrite !lookup_more. unfold lookup2.
    pose proof (rel1_zget _ _ _ a F) as R. destruct (ModelTape.zget a d) as [x|]; destruct (ModelTape.zget a d') as [y|]; try contradiction; [|reflexivity].
    rewrite (rel2_zget _ _ _ _ b R); [reflexivity|]. unfold skipped. cbn. now rewrite !Z.eqb_refl.
Qed.

(** ** replace *)
Definition included (path : list ModelInterp.key) : result (list selitem) := if (length path <=? 2)%nat then Ok [] else determine_include path.
Lemma replaced_inv p o path source dest d : replaced_dict p o path source dest = Ok d ->
  exists inc src dst obj, included path = Ok inc /\ parse p false None (Some inc) o source = (Ok src, o) /\
    parse p false None (Some inc) o dest = (Ok dst, o) /\ path_lookup path (as_object src) = Ok obj /\
    path_set {| po_dict := true; po_leading := true |} true path obj (as_object dst) = (Ok tt, as_object d).
Proof.
  unfold replaced_dict. fold (included path). destruct (included path) as [inc|]; [|discriminate]. cbn [bind].
  destruct (parse p false None (Some inc) o source) as [[src|] o1] eqn:E1; [|discriminate]. cbn [bind].
  destruct (path_lookup path (as_object src)) as [obj|] eqn:L; [|discriminate]. cbn [bind].
  pose proof (parse_opts _ _ _ _ _ _ _ E1) as ->.
  destruct (parse p false None (Some inc) o dest) as [[dst|] o2] eqn:E2; [|discriminate]. cbn [bind].
  pose proof (parse_opts _ _ _ _ _ _ _ E2) as ->.
  destruct (path_set _ _ _ _ _) as [[[]|] v] eqn:S; [|discriminate]. intros F. apply file_back in F. subst v.
  exists inc, src, dst, obj. auto.
Qed.

Theorem replaced_path p o path source dest d : path <> [] -> replaced_dict p o path source dest = Ok d ->
  exists inc src dst obj, included path = Ok inc /\ parse p false None (Some inc) o source = (Ok src, o) /\
    parse p false None (Some inc) o dest = (Ok dst, o) /\
    path_lookup path (as_object src) = Ok obj /\ path_lookup path (as_object d) = Ok obj /\
    forall q w, unrelated path q -> path_lookup q (as_object d) = Ok w <-> path_lookup q (as_object dst) = Ok w.
Proof.
  intros N H. apply replaced_inv in H as (inc & src & dst & obj & I & E1 & E2 & L & S). exists inc, src, dst, obj.
  repeat split; auto.
  - exact (get_after_set _ _ _ N _ _ _ S).
  - intros Q. exact (proj1 (others_after_set _ _ _ N _ _ _ _ q w S H) Q).
  - intros Q. exact (proj2 (others_after_set _ _ _ N _ _ _ _ q w S H) Q).
Qed.

(** the dictionary of a file has no key twice *)
Lemma step_good ro st l st' : good_dict (sec_dic st) -> split_step ro st l = Ok st' -> good_dict (sec_dic st').
Proof.
  intros G. unfold split_step. intros H.
  repeat match type of H with
  | (if ?b then _ else _) = Ok _ => destruct b
  | bind ?x _ = Ok _ => destruct x; cbn [bind] in H
  | Ok _ = Ok _ => injection H as <-
  | Err _ = Ok _ => discriminate
  end; cbn [sec_dic with_level]; auto using good_append.
Qed.
Lemma loop_good ro : forall ls st st', good_dict (sec_dic st) -> split_loop ro st ls = Ok st' -> good_dict (sec_dic st').
Proof.
  induction ls as [|l ls IH]; intros st st' G; cbn [split_loop]; [intros H; injection H as <-; exact G|].
  destruct (split_step ro st l) as [s|] eqn:E; [|discriminate]. cbn [bind]. apply IH. exact (step_good _ _ _ _ G E).
Qed.
Lemma split_good ro lines d : split_sections ro lines = Ok d -> good_dict d.
Proof.
  assert (G0 : good_dict []).
  { split; [split; [constructor|intros ? ? []]|]. intros mf mt l. discriminate. }
  unfold split_sections. destruct (skip_leading_blank ro lines) as [rest|]; [|discriminate]. cbn [bind].
  destruct (get_line lines 0) as [l0|]; [|discriminate]. cbn [bind]. destruct (get_line rest 0) as [h|]; [|discriminate]. cbn [bind].
  destruct (read_ctrl ro h) as [th|]; [|discriminate]. cbn [bind].
  match goal with |- bind ?x _ = Ok _ -> _ => destruct x as [st|] eqn:E; [|discriminate] end. cbn [bind].
  match goal with |- (if ?b then _ else _) = _ -> _ => destruct b; [discriminate|] end. intros H. injection H as <-. revert E.
  match goal with |- (if ?b then _ else _) = _ -> _ => destruct b end.
  - destruct (negb (r_tpid ro)); [discriminate|]. apply loop_good. exact G0.
  - apply loop_good. cbn [sec_dic]. apply good_append, G0.
Qed.

Lemma raw1_lookup inc (s : mfdic (list str)) (d : mfdic (section dict)) mf mt : Forall2 (raw1 inc) s d -> should_skip_section mf mt None (Some inc) = true ->
  lookup2 d mf mt = option_map Raw (lookup2 s mf mt).
Proof.
  intros F S. unfold lookup2. induction F as [|[a u] [b v] x y [E R] F IH]; [reflexivity|]. cbn [fst snd] in *. subst b. cbn [ModelTape.zget].
  destruct (Z.eqb_spec mf a) as [->|]; [|exact IH]. clear IH F x y.
  induction R as [|[k l] [k' l'] x y [E2 R2] R IH]; [reflexivity|]. cbn [fst snd] in *. subst k'. cbn [ModelTape.zget].
  destruct (Z.eqb_spec mt k) as [->|]; [|exact IH]. cbn [option_map]. now rewrite (R2 S).
Qed.

Theorem replaced_rest p o path source dest d s mf mt : (exists a b r, path = KInt a :: KInt b :: r) -> ~ leads_to path mf mt ->
  replaced_dict p o path source dest = Ok d -> split_sections (p_ro p) dest = Ok s ->
  forall w, path_lookup [KInt mf; KInt mt] (as_object d) = Ok w <-> exists ls, w = VList (map VStr ls) /\ holds s mf mt ls.
Proof.
  intros (a & b & r & ->) NL H S w. assert (N : KInt a :: KInt b :: r <> []) by discriminate.
  destruct (replaced_path _ _ _ _ _ _ N H) as (inc & src & dst & obj & I & _ & E2 & _ & _ & Q).
  rewrite Q.
  2: { split; intros (c & C).
    - destruct r; [|discriminate]. injection C as -> -> _. apply NL. split; reflexivity.
    - injection C as -> -> _. apply NL. split; reflexivity. }
  assert (F : Forall2 (raw1 inc) s dst).
  { unfold parse, parse_tape in E2. rewrite S in E2. exact (mfs_raw _ _ _ _ _ _ _ _ _ _ E2). }
  assert (K : should_skip_section mf mt None (Some inc) = true).
  { unfold included in I. destruct r as [|c r]; cbn in I; injection I as <-; [reflexivity|]. cbn. destruct (Z.eqb_spec a mf) as [->|]; [|reflexivity].
    destruct (Z.eqb_spec b mt) as [->|]; [|reflexivity]. exfalso. apply NL. split; reflexivity. }
  rewrite lookup_more, (raw1_lookup inc s dst mf mt F K). destruct (split_good _ _ _ S) as [Dd _].
  destruct (lookup2 s mf mt) as [ls|] eqn:E; cbn [option_map path_lookup section_object].
  - split.
    + intros Hw. injection Hw as <-. exists ls. split; [reflexivity|]. now apply holds_lookup.
    + intros (ls' & -> & Hl). apply (holds_lookup s mf mt ls' Dd) in Hl. congruence.
  - split; [discriminate|]. intros (ls' & _ & Hl). apply (holds_lookup s mf mt ls' Dd) in Hl. congruence.
Qed.

(** *** A whole section *)
Lemma parse_raw p o lines s : split_sections (p_ro p) lines = Ok s ->
  (forall mf mt ls, holds s mf mt ls -> exists l r c, ls = l :: r /\ read_ctrl (p_ro p) l = Ok c) ->
  parse p false None (Some []) o lines = (Ok (raw_dict s), o).
Proof.
  intros H F. unfold parse, parse_tape. rewrite H. clear H. revert F. unfold holds.
  assert (Hm : forall mf mts, (forall mt ls, In (mt, ls) mts -> exists l r c, ls = l :: r /\ read_ctrl (p_ro p) l = Ok c) ->
    parse_mts (parse_one p) (has_recipe (p_recipes p)) (p_ro p) (p_wo p) false None (Some []) o mf mts = (Ok (map (fun s => (fst s, Raw (snd s))) mts), o)).
  { induction mts as [|[mt ls] mts IH]; intros F; cbn [parse_mts map fst snd]; [reflexivity|].
    destruct (F mt ls) as (l & r & c & -> & E2); [now left|].
    unfold parse_section, get_line. cbn [nth_error bind]. rewrite E2. cbn [should_skip_section sel_mf sel_mfmt existsb orb negb].
    rewrite andb_false_r. rewrite IH by (intros; apply (F mt0); now right). reflexivity. }
  induction s as [|[mf mts] d IH]; intros F; cbn [parse_mfs raw_dict map fst snd]; [reflexivity|].
  rewrite Hm.
  - rewrite IH; [reflexivity|]. intros mf' mt ls (sub & I & J). apply (F mf' mt). exists sub. split; [now right|exact J].
  - intros mt ls I. apply (F mf mt). exists mts. split; [now left|exact I].
Qed.
Lemma verbatim_first ro mat (s : mfdic (list str)) : verbatim (r_width ro) mat s ->
  forall mf mt ls, holds s mf mt ls -> exists l r c, ls = l :: r /\ read_ctrl ro l = Ok c.
Proof.
  intros (D & _ & _ & (h & hm & Hh & Ch & _) & H0 & _ & Vs) mf mt ls H. destruct (Z.eq_dec mf 0) as [->|Nz].
  - pose proof (H0 _ _ H) as ->. assert (ls = [h]) as -> by exact (holds_fun _ _ _ _ _ D H Hh).
    exists h, [], (mkctrl hm 0 0). split; [reflexivity|]. now apply carries_iff.
  - destruct (Vs _ _ _ Nz H) as (_ & Ne & F). destruct ls as [|l r]; [contradiction|]. apply Forall_cons_iff in F as [[C _] _].
    exists l, r, (mkctrl mat mf mt). split; [reflexivity|]. now apply carries_iff.
Qed.
Lemma lookup_raw (s : mfdic (list str)) mf mt : lookup2 (raw_dict (D := dict) s) mf mt = option_map Raw (lookup2 s mf mt).
Proof.
  unfold lookup2, raw_dict. induction s as [|[a u] s IH]; [reflexivity|]. cbn [map fst snd ModelTape.zget]. destruct (mf =? a); [|exact IH]. clear IH.
  induction u as [|[k l] u IH]; [reflexivity|]. cbn [map fst snd ModelTape.zget]. destruct (mt =? k); [reflexivity|exact IH].
Qed.
Lemma zset_map {A B} (g : A -> B) k v : forall l : list (Z * A), zset k (g v) (map (fun s => (fst s, g (snd s))) l) = map (fun s => (fst s, g (snd s))) (zset k v l).
Proof. induction l as [|[j x] l IH]; [reflexivity|]. cbn [map zset fst snd]. destruct (k =? j); cbn [map fst snd]; [reflexivity|]. now rewrite IH. Qed.
Lemma zget_map {A B} (g : A -> B) k : forall l : list (Z * A), ModelTape.zget k (map (fun s => (fst s, g (snd s))) l) = option_map g (ModelTape.zget k l).
Proof. induction l as [|[j x] l IH]; [reflexivity|]. cbn [map ModelTape.zget fst snd]. destruct (k =? j); [reflexivity|exact IH]. Qed.
Definition raws (l : mtdic (list str)) : mtdic (section dict) := map (fun s => (fst s, Raw (snd s))) l.
Lemma raw_set (s : mfdic (list str)) mf mt ls : raw_dict (D := dict) (dic_set s mf mt ls) = dic_set (raw_dict s) mf mt (Raw ls).
Proof.
  unfold dic_set. change (raw_dict (D := dict)) with (map (fun e : Z * mtdic (list str) => (fst e, raws (snd e)))).
  rewrite <- (zset_map raws mf), (zget_map raws mf s). f_equal. destruct (ModelTape.zget mf s) as [x|]; cbn [option_map]; [|reflexivity].
  unfold raws. now rewrite <- (zset_map Raw mt).
Qed.
Lemma set_section (d : mfdic (section dict)) mf mt x :
  path_set {| po_dict := true; po_leading := true |} true [KInt mf; KInt mt] (section_object x) (as_object d) = (Ok tt, as_object (dic_set d mf mt x)).
Proof.
  rewrite !as_object_sub. cbn [path_set po_dict orb on_setdefault]. rewrite (dget_zget sub_object mf d). unfold dic_set.
  destruct (ModelTape.zget mf d) as [s|]; cbn [option_map setitem].
  - unfold sub_object at 1. cbn [setitem]. rewrite (dset_zset section_object mt x s). fold (sub_object (zset mt x s)). now rewrite (dset_zset sub_object mf).
  - change (VDict (dset (KInt mt) (section_object x) [])) with (sub_object (zset mt x [])). now rewrite (dset_zset sub_object mf).
Qed.

Lemma verbatim_set w mat (s1 s2 : mfdic (list str)) mf mt ls : verbatim w mat s1 -> verbatim w mat s2 -> holds s1 mf mt ls -> verbatim w mat (dic_set s2 mf mt ls).
Proof.
  intros (D1 & _ & P1 & (h1 & hm1 & Hh1 & Ch1 & Lh1 & B1) & Z1 & _ & V1) (D2 & Nm & P2 & (h2 & hm2 & Hh2 & Ch2 & Lh2 & B2) & Z2 & (a & b & l & Na & Ha) & V2) H.
  pose proof (dict_set s2 mf mt ls D2) as D.
  assert (Q : forall x y z, holds (dic_set s2 mf mt ls) x y z <-> (x = mf /\ y = mt /\ z = ls) \/ (~ (x = mf /\ y = mt) /\ holds s2 x y z)).
  { intros x y z. rewrite (holds_lookup _ x y z D), (holds_lookup _ x y z D2), lookup_set.
    destruct (Z.eqb_spec x mf); destruct (Z.eqb_spec y mt); cbn [andb]; split; intros E; try (right; split; [tauto|exact E]); try (destruct E as [E|E]; tauto).
    - injection E as <-. auto.
    - destruct E as [(_ & _ & ->)|[E _]]; [reflexivity|tauto]. }
  split; [exact D|]. split; [exact Nm|]. split; [|split; [|split; [|split]]].
  - intros x sub I. apply zset_in in I as [E|I]; [|eauto]. injection E as -> ->. split.
    + clear. destruct (ModelTape.zget mf s2) as [[|[k v] r]|]; cbn [zset]; try discriminate. destruct (mt =? k); discriminate.
    + destruct H as (sub & I & _). apply (P1 _ _ I).
  - destruct (Z.eq_dec mf 0) as [->|Nz].
    + pose proof (Z1 _ _ H) as ->. assert (ls = [h1]) as -> by exact (holds_fun _ _ _ _ _ D1 H Hh1).
      exists h1, hm1. split; [|auto]. apply Q. auto.
    + exists h2, hm2. split; [|auto]. apply Q. right. split; [|exact Hh2]. intros [E _]. congruence.
  - intros x z I. apply Q in I as [(E & -> & ->)|[_ I]]; [|eauto]. subst mf. eauto.
  - destruct (Z.eq_dec a mf) as [->|N1]; [destruct (Z.eq_dec b mt) as [->|N2]|].
    + exists mf, mt, ls. split; [exact Na|]. apply Q. auto.
    + exists mf, b, l. split; [exact Na|]. apply Q. right. split; [tauto|exact Ha].
    + exists a, b, l. split; [exact Na|]. apply Q. right. split; [tauto|exact Ha].
  - intros x y z Nx I. apply Q in I as [(-> & -> & ->)|[_ I]]; eauto.
Qed.

Lemma write_ro {D} (rr : Z -> Z -> D -> result (list str * ctrl)) ro ro' wo zab exc inc d : r_width ro = r_width ro' ->
  write_tape rr ro wo zab exc inc d = write_tape rr ro' wo zab exc inc d.
Proof.
  intros R. assert (C : forall l, read_ctrl ro l = read_ctrl ro' l) by (intros l; unfold read_ctrl; now rewrite R).
  assert (S : forall mf mt s, write_section rr ro wo zab mf mt s = write_section rr ro' wo zab mf mt s).
  { intros mf mt [ls|x]; cbn [write_section]; [|reflexivity]. destruct (add_linenumbers_to_section wo ls); cbn [bind]; [|reflexivity]. now rewrite C. }
  assert (M : forall mf mts cur, write_mts rr ro wo zab exc inc mf mts cur = write_mts rr ro' wo zab exc inc mf mts cur).
  { induction mts as [|[mt s] r IH]; intros cur; cbn [write_mts]; [reflexivity|]. rewrite S. destruct (should_skip_section _ _ _ _); [apply IH|].
    destruct (write_section rr ro' wo zab mf mt s) as [[ls c]|]; cbn [bind]; [|reflexivity]. now rewrite IH. }
  unfold write_tape. f_equal. generalize (zsort d). induction l as [|[mf mts] r IH]; cbn [write_mfs]; [reflexivity|]. rewrite M.
  destruct (write_mts rr ro' wo zab exc inc mf (zsort mts) None) as [[ls cur]|]; cbn [bind]; [|reflexivity]. now rewrite IH.
Qed.

Theorem replaced_section p o mf mt source dest s1 s2 mat ls ro :
  field_width (p_wo p) -> r_width (p_ro p) = w_width (p_wo p) -> split_sections (p_ro p) source = Ok s1 -> split_sections (p_ro p) dest = Ok s2 ->
  verbatim (w_width (p_wo p)) mat s1 -> verbatim (w_width (p_wo p)) mat s2 -> holds s1 mf mt ls -> strict ro -> r_width ro = w_width (p_wo p) ->
  exists lines d, replace_object p o [KInt mf; KInt mt] source dest = Ok lines /\ split_sections ro lines = Ok d /\ is_dict2 d /\
    (exists ls', holds d mf mt ls' /\ Forall2 (same_columns (w_width (p_wo p))) ls ls') /\
    (forall a b x, (a, b) <> (mf, mt) -> holds s2 a b x -> exists x', holds d a b x' /\ Forall2 (same_columns (w_width (p_wo p))) x x') /\
    (forall a b x', (a, b) <> (mf, mt) -> holds d a b x' -> exists x, holds s2 a b x /\ Forall2 (same_columns (w_width (p_wo p))) x x').
Proof.
  intros W Rw S1 S2 V1 V2 H St Rs.
  assert (E : replaced_dict p o [KInt mf; KInt mt] source dest = Ok (raw_dict (dic_set s2 mf mt ls))).
  { unfold replaced_dict. cbn [length Nat.leb bind].
    rewrite (parse_raw p o source s1 S1) by (rewrite <- Rw in V1; exact (verbatim_first _ _ _ V1)). cbn [bind].
    rewrite lookup_more, lookup_raw. destruct V1 as (D1 & V1'). rewrite (proj1 (holds_lookup _ _ _ _ D1) H). cbn [option_map path_lookup bind].
    rewrite (parse_raw p o dest s2 S2) by (rewrite <- Rw in V2; exact (verbatim_first _ _ _ V2)). cbn [bind].
    rewrite (set_section (raw_dict s2) mf mt (Raw ls)). now rewrite file_ok', raw_set. }
  pose proof (verbatim_set _ _ _ _ _ _ _ V1 V2 H) as V.
  destruct (verbatim_written (D := dict) no_recipe ro (p_wo p) false W Rs mat _ V) as (lines & Wr).
  destruct (verbatim_reread (D := dict) no_recipe ro (p_wo p) false W Rs ltac:(discriminate) mat _ V lines St Wr) as (d & Sp & Dd & A & B).
  exists lines, d. split.
  { unfold replace_object. rewrite E. cbn [bind]. unfold write. rewrite (write_ro _ _ ro) by congruence. rewrite (write_raw_any _ no_recipe). exact Wr. }
  split; [exact Sp|]. split; [exact Dd|].
  assert (D2 : is_dict2 s2) by apply V2. assert (D3 : is_dict2 (dic_set s2 mf mt ls)) by now apply dict_set.
  assert (Q : forall x y z, holds (dic_set s2 mf mt ls) x y z <-> lookup2 (dic_set s2 mf mt ls) x y = Some z) by (intros; now apply holds_lookup).
  assert (NE : forall a b, (a, b) <> (mf, mt) -> (a =? mf) && (b =? mt) = false).
  { intros a b N. destruct (Z.eqb_spec a mf) as [->|]; [|reflexivity]. destruct (Z.eqb_spec b mt) as [->|]; [contradiction|reflexivity]. }
  split; [|split].
  - apply A. apply Q. rewrite lookup_set, !Z.eqb_refl. reflexivity.
  - intros a b x N Hx. apply A. apply Q. rewrite lookup_set, (NE _ _ N). now apply holds_lookup.
  - intros a b x' N Hx. apply B in Hx as (x & Hx & F). exists x. split; [|exact F]. apply Q in Hx. rewrite lookup_set, (NE _ _ N) in Hx. now apply holds_lookup.
Qed.

(** ** A check of [verbatim] for examples *)
Definition nodup_z (l : list Z) : bool := (fix f l := match l with [] => true | x :: r => negb (existsb (Z.eqb x) r) && f r end) l.
Definition line_check (ro : ropts) (mat mf mt : Z) (l : str) : bool :=
  (match read_ctrl ro l with Ok c => (MAT c =? mat) && (MF c =? mf) && (MT c =? mt) | Err _ => false end)
  && (6 * r_width ro + 9 <=? length l)%nat.
Definition verbatim_check (ro : ropts) (mat hmat : Z) (d : mfdic (list str)) : bool :=
  nodup_z (map fst d) && negb (mat =? 0) &&
  forallb (fun e => nodup_z (map fst (snd e)) && match snd e with [] => false | _ => true end && (0 <=? fst e)) d &&
  match ModelTape.zget 0 d with
  | Some [(0, [h])] => line_check ro hmat 0 0 h && negb (is_blank (firstn (6 * r_width ro + 9) h))
  | _ => false
  end &&
  existsb (fun e => negb (fst e =? 0)) d &&
  forallb (fun e => (fst e =? 0) || forallb (fun s => negb (fst s =? 0) && match snd s with [] => false | _ => true end
    && forallb (line_check ro mat (fst e) (fst s)) (snd s)) (snd e)) d.
Lemma line_check_ok ro mat mf mt l : line_check ro mat mf mt l = true -> carries (r_width ro) l mat mf mt /\ (6 * r_width ro + 9 <= length l)%nat.
Proof.
  unfold line_check. intros H. apply andb_true_iff in H as [H L]. split; [|now apply Nat.leb_le]. destruct (read_ctrl ro l) as [[a b c]|] eqn:E; [|discriminate].
  cbn [MAT MF MT] in H. apply andb_true_iff in H as [H H3]. apply andb_true_iff in H as [H1 H2]. apply Z.eqb_eq in H1, H2, H3. subst.
  apply carries_iff. exact E.
Qed.
Lemma nodup_z_ok l : nodup_z l = true -> NoDup l.
Proof.
  induction l as [|x l IH]; intros H; constructor; apply andb_true_iff in H as [H1 H2]; auto.
  intros I. apply negb_true_iff in H1. assert (existsb (Z.eqb x) l = true) by (apply existsb_exists; exists x; split; [auto|apply Z.eqb_refl]). congruence.
Qed.
Lemma verbatim_check_ok ro mat hmat d : verbatim_check ro mat hmat d = true -> verbatim (r_width ro) mat d.
Proof.
  unfold verbatim_check. rewrite !andb_true_iff. intros (((((N & M) & S) & H) & X) & V).
  rewrite forallb_forall in S, V. apply negb_true_iff, Z.eqb_neq in M.
  assert (D : is_dict2 d).
  { split; [now apply nodup_z_ok|]. intros mf sub I. specialize (S _ I). cbn [fst snd] in S. rewrite !andb_true_iff in S. destruct S as ((S & _) & _). now apply nodup_z_ok. }
  split; [exact D|]. split; [exact M|]. split; [|split; [|split; [|split]]].
  - intros mf sub I. specialize (S _ I). cbn [fst snd] in S. rewrite !andb_true_iff in S. destruct S as ((_ & S1) & S2). split; [|now apply Z.leb_le].
    intros ->. discriminate.
  - destruct (ModelTape.zget 0 d) as [[|[[| |] [|h [|]]] [|]]|] eqn:E; try discriminate. apply andb_true_iff in H as [H1 H2]. apply line_check_ok in H1 as [H1 H3].
    exists h, hmat. split; [|split; [exact H1|split; [exact H3|]]].
    + apply zget_in in E. exists [(0, [h])]. split; [exact E|now left].
    + intros B. apply blank_iff in B. rewrite B in H2. discriminate.
  - intros mt ls (sub & I & J). destruct D as [D1 D2]. pose proof (in_zget 0 sub d D1 I) as E. unfold mtdic in *. rewrite E in H.
    destruct sub as [|[[| |] [|h [|]]] [|]]; try discriminate. destruct J as [J|[]]. now injection J as <- _.
  - apply existsb_exists in X as ([mf sub] & I & X). cbn [fst] in X. apply negb_true_iff, Z.eqb_neq in X. pose proof (S _ I) as S'. cbn [fst snd] in S'.
    rewrite !andb_true_iff in S'. destruct S' as ((_ & S1) & _). destruct sub as [|[mt ls] sub]; [discriminate|]. exists mf, mt, ls. split; [exact X|]. exists ((mt, ls) :: sub). split; [exact I|now left].
  - intros mf mt ls Nz (sub & I & J). specialize (V _ I). cbn [fst snd] in V. apply orb_true_iff in V as [V|V]; [apply Z.eqb_eq in V; contradiction|].
    rewrite forallb_forall in V. specialize (V _ J). cbn [fst snd] in V. rewrite !andb_true_iff in V. destruct V as ((V1 & V2) & V3).
    split; [now apply Z.eqb_neq, negb_true_iff|]. split; [intros ->; discriminate|]. rewrite forallb_forall in V3. apply Forall_forall. intros l L. now apply line_check_ok, V3.
Qed.
