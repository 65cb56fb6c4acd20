(** Proofs about the commands that look at files. *)
From Coq Require Import Ascii String ZArith Bool Lia List.
From Coq Require Import Floats.SpecFloat.
From Verif Require Import PyBase PyFloat ModelFortran ModelRecords ModelTape ModelNum ModelRecipe ModelInterp ModelParser ModelPath ModelMatch ModelTools ModelCli ModelCommands.
From Verif Require Import SpecFields SpecTape SpecInterp SpecTools SpecCommands ProofFields ProofTools ProofInterpOpt ProofInterpGrow ProofReject.
Import ListNotations.
Open Scope Z_scope.

Section Loops.
  Context {S : Type}.
  Variable pf : S -> str -> result val * S.
  Variable s : S.
  Hypothesis Keep : forall f v s', pf s f = (Ok v, s') -> s' = s.
  Definition fine (f : str) : Prop := exists v, fst (pf s f) = Ok v.

  Lemma validate_failed : forall files t st, fst (validate_loop pf t true st files) = true.
  Proof. induction files as [|f r IH]; intros t st; cbn [validate_loop]; [reflexivity|]. destruct (pf t f) as [[v|e] t']; apply IH. Qed.
  Lemma validate_code : forall files st, fst (validate_loop pf s false st files) = false <-> Forall fine files.
  Proof.
    induction files as [|f r IH]; intros st; cbn [validate_loop]; [split; [constructor|reflexivity]|].
    destruct (pf s f) as [[v|e] s'] eqn:E.
    - pose proof (Keep _ _ _ E). subst s'. rewrite IH. split; intros H; [constructor; [exists v; now rewrite E|exact H]|now inversion H].
    - rewrite validate_failed. split; [discriminate|]. intros H. inversion H as [|? ? (v & F) ?]; subst. rewrite E in F. discriminate.
  Qed.
  Lemma validate_names : forall files t b st, map fst (snd (validate_loop pf t b st files)) = map fst st ++ files.
  Proof.
    induction files as [|f r IH]; intros t b st; cbn [validate_loop]; [now rewrite app_nil_r|].
    destruct (pf t f) as [[v|e] t']; rewrite IH, map_app, <- app_assoc; reflexivity.
  Qed.
  Lemma validate_acc : forall files t b st, snd (validate_loop pf t b st files) = st ++ snd (validate_loop pf t b [] files).
  Proof.
    induction files as [|f r IH]; intros t b st; cbn [validate_loop]; [cbn; now rewrite app_nil_r|].
    destruct (pf t f) as [[v|e] t']; rewrite IH; cbn [app]; rewrite (IH _ _ [_]), app_assoc; reflexivity.
  Qed.
  (** the summary is right up to the first file that fails *)
  Lemma validate_status : forall files b pre f ok post, snd (validate_loop pf s b [] files) = pre ++ (f, ok) :: post ->
    (forall x, In x pre -> snd x = true) -> (ok = true <-> fine f).
  Proof.
    induction files as [|g r IH]; intros b pre f ok post; cbn [validate_loop]; [destruct pre; discriminate|].
    destruct (pf s g) as [[v|e] s'] eqn:E; rewrite validate_acc; cbn [app]; intros H A.
    - pose proof (Keep _ _ _ E). subst s'. destruct pre as [|x pre]; cbn [app] in H.
      + injection H as -> <- _. split; [intros _; exists v; now rewrite E|reflexivity].
      + injection H as _ H. apply (IH b pre f ok post H). intros y Y. apply A. now right.
    - destruct pre as [|x pre]; cbn [app] in H.
      + injection H as -> <- _. split; [discriminate|]. intros (v & F). rewrite E in F. discriminate.
      + injection H as X _. specialize (A x (or_introl eq_refl)). subst x. discriminate.
  Qed.
  (** ... and everywhere if the state does not change *)
  Lemma validate_status_all : (forall f, snd (pf s f) = s) -> forall files b f ok, In (f, ok) (snd (validate_loop pf s b [] files)) -> (ok = true <-> fine f).
  Proof.
    intros K. induction files as [|g r IH]; intros b f ok; cbn [validate_loop]; [intros []|].
    specialize (K g). unfold fine. destruct (pf s g) as [[v|e] s'] eqn:E; cbn [snd] in K; subst s'; rewrite validate_acc; cbn [app].
    - intros [H|H]; [|now apply (IH b)]. injection H as -> <-. rewrite E. split; [intros _; now exists v|reflexivity].
    - intros [H|H]; [|now apply (IH true)]. injection H as -> <-. rewrite E. split; [discriminate|intros (v & F); discriminate F].
  Qed.

  (** files that are fine are never reported as failed *)
  Variable LE : S -> S -> Prop.
  Hypothesis Refl : LE s s.
  Hypothesis Step : forall t f, LE s t -> LE s (snd (pf t f)).
  Hypothesis Acc : forall t f v, LE s t -> fst (pf s f) = Ok v -> fst (pf t f) = Ok v.
  Lemma validate_fine : forall files t b f ok, LE s t -> fine f -> In (f, ok) (snd (validate_loop pf t b [] files)) -> ok = true.
  Proof.
    induction files as [|g r IH]; intros t b f ok L F; cbn [validate_loop]; [intros []|].
    pose proof (Step t g L) as L'. destruct F as (v & F). pose proof (Acc t g) as A.
    destruct (pf t g) as [[w|e] t'] eqn:E; cbn [fst snd] in *; rewrite validate_acc; cbn [app]; intros [H|H].
    - now injection H as _ <-.
    - apply (IH _ _ _ _ L' (ex_intro _ v F) H).
    - injection H as -> <-. specialize (A v L F). discriminate.
    - apply (IH _ _ _ _ L' (ex_intro _ v F) H).
  Qed.
  Variable q : query.
  Lemma match_acc : forall files t b out x, match_loop pf q t b out files = Ok x -> forall y, In y out -> In y (snd x).
  Proof.
    induction files as [|g r IH]; intros t b out x; cbn [match_loop]; [intros H; injection H as <-; auto|].
    destruct (pf t g) as [[w|e] t']; [|apply IH]. destruct (eval_tree_print q w) as [c|]; cbn [bind]; [|discriminate].
    intros H y Y. apply (IH _ _ _ _ H). apply in_or_app. now left.
  Qed.
  Lemma match_fine : forall files t b out x f v, LE s t -> match_loop pf q t b out files = Ok x -> In f files -> fst (pf s f) = Ok v ->
    exists c, eval_tree_print q v = Ok c /\ In (f, c) (snd x).
  Proof.
    induction files as [|g r IH]; intros t b out x f v L; cbn [match_loop]; [intros _ []|].
    pose proof (Step t g L) as L'. pose proof (Acc t g) as A.
    destruct (pf t g) as [[w|e] t'] eqn:E; cbn [fst snd] in *.
    - destruct (eval_tree_print q w) as [c|] eqn:V; cbn [bind]; [|discriminate]. intros H [->|I] F; [|exact (IH _ _ _ _ _ _ L' H I F)].
      specialize (A v L F). injection A as ->. exists c. split; [exact V|]. apply (match_acc _ _ _ _ _ H). apply in_or_app. right. now left.
    - intros H [->|I] F; [specialize (A v L F); discriminate|exact (IH _ _ _ _ _ _ L' H I F)].
  Qed.
  Lemma match_failed : forall files t out b o', match_loop pf q t true out files = Ok (b, o') -> b = true.
  Proof.
    induction files as [|f r IH]; intros t out b o'; cbn [match_loop]; [intros H; now injection H as <- _|].
    destruct (pf t f) as [[v|e] t']; [|apply IH]. destruct (eval_tree_print q v); cbn [bind]; [apply IH|discriminate].
  Qed.
  Lemma match_code : forall files out b o', match_loop pf q s false out files = Ok (b, o') ->
    (b = false <-> Forall fine files) /\
    (b = false -> o' = out ++ map (fun f => (f, match fst (pf s f) with Ok v => match eval_tree_print q v with Ok x => x | Err _ => false end | Err _ => false end)) files /\
       Forall (fun f => forall v, fst (pf s f) = Ok v -> exists x, eval_tree_print q v = Ok x) files).
  Proof.
    induction files as [|f r IH]; intros out b o'; cbn [match_loop].
    - intros H. injection H as <- <-. rewrite app_nil_r. repeat split; constructor.
    - destruct (pf s f) as [[v|e] s'] eqn:E.
      + destruct (eval_tree_print q v) as [x|] eqn:V; cbn [bind]; [|discriminate]. pose proof (Keep _ _ _ E). subst s'. intros H.
        destruct (IH _ _ _ H) as [C O]. rewrite C. split.
        * split; intros G; [constructor; [exists v; now rewrite E|exact G]|now inversion G].
        * intros G. rewrite <- C in G. destruct (O G) as [-> F]. split.
          -- cbn [map]. rewrite E. cbn [fst]. rewrite V, <- app_assoc. reflexivity.
          -- constructor; [|exact F]. rewrite E. cbn [fst]. intros w W. injection W as <-. now exists x.
      + intros H. apply match_failed in H. subst b. split; [|discriminate]. split; [discriminate|].
        intros G. inversion G as [|? ? (v & F) ?]; subst. rewrite E in F. discriminate.
  Qed.
  Lemma match_raised : forall files b out e, match_loop pf q s b out files = Err e ->
    exists f t v t', In f files /\ pf t f = (Ok v, t') /\ eval_tree_print q v = Err e.
  Proof.
    intros files. generalize s. clear Keep. induction files as [|f r IH]; intros t b out e; cbn [match_loop]; [discriminate|].
    destruct (pf t f) as [[v|x] t'] eqn:E.
    - destruct (eval_tree_print q v) as [y|y] eqn:V; cbn [bind]; intros H.
      + destruct (IH _ _ _ _ H) as (g & t0 & w & t1 & I & R). exists g, t0, w, t1. split; [now right|exact R].
      + injection H as ->. exists f, t, v, t'. split; [now left|]. split; assumption.
    - intros H. destruct (IH _ _ _ _ H) as (g & t0 & w & t1 & I & R). exists g, t0, w, t1. split; [now right|exact R].
  Qed.
End Loops.

Section Python.
  Variables (p : parser) (read : str -> result (list str)) (o : popts).

  Lemma parsefile_keep f v o' : parsefile p read o f = (Ok v, o') -> o' = o.
  Proof.
    unfold parsefile. destruct (read f) as [ls|]; [|discriminate]. destruct (parse p false None None o ls) as [[d|] o1] eqn:E; cbn [bind]; [|discriminate].
    intros H. injection H as _ <-. exact (parse_opts _ _ _ _ _ _ _ E).
  Qed.
  Lemma parsefile_reads f v : fst (parsefile p read o f) = Ok v <-> exists d, reads_as p read o f d /\ v = as_object d.
  Proof.
    unfold parsefile, reads_as. destruct (read f) as [ls|e].
    - destruct (parse p false None None o ls) as [[d|e] o1] eqn:E; cbn [bind fst]; split.
      + intros H. injection H as <-. exists d. split; [|reflexivity]. exists ls. split; [reflexivity|]. now rewrite E.
      + intros (d' & (ls' & L & P) & ->). injection L as <-. rewrite E in P. now injection P as <-.
      + discriminate.
      + intros (d' & (ls' & L & P) & _). injection L as <-. rewrite E in P. discriminate P.
    - cbn [fst]. split; [discriminate|]. intros (d' & (ls' & L & _) & _). discriminate L.
  Qed.
  Lemma fine_valid f : fine (parsefile p read) o f <-> valid_file p read o f.
  Proof.
    unfold fine, valid_file. split.
    - intros (v & H). apply parsefile_reads in H. destruct H as (d & R & _). now exists d.
    - intros (d & R). exists (as_object d). apply parsefile_reads. now exists d.
  Qed.
  Lemma forall_valid l : Forall (fine (parsefile p read) o) l <-> Forall (valid_file p read o) l.
  Proof. split; apply Forall_impl; intros f; apply fine_valid. Qed.

  Theorem validate_exit glob names : 
    let '(code, status) := validate (parsefile p read) glob o names in
    (code = 0 <-> Forall (valid_file p read o) (flat_map glob names)) /\ (code = 0 \/ code = 1) /\ map fst status = flat_map glob names /\
    forall pre f ok post, status = pre ++ (f, ok) :: post -> (forall x, In x pre -> snd x = true) -> (ok = true <-> valid_file p read o f).
  Proof.
    unfold validate. pose proof (validate_code (parsefile p read) o parsefile_keep (flat_map glob names) []) as C.
    pose proof (validate_names (parsefile p read) (flat_map glob names) o false []) as N.
    pose proof (validate_status (parsefile p read) o parsefile_keep (flat_map glob names) false) as T.
    destruct (validate_loop (parsefile p read) o false [] (flat_map glob names)) as [b st]. cbn [fst snd] in *.
    rewrite forall_valid in C. split; [|split; [|split; [exact N|]]].
    - destruct b; [|tauto]. split; [lia|]. intros H. apply C in H. discriminate.
    - destruct b; [now right|now left].
    - intros pre f ok post E A. rewrite <- fine_valid. exact (T pre f ok post E A).
  Qed.
  Theorem validate_each glob names f ok : (forall mf mt b, find_recipe (p_recipes p) mf mt = Some b -> no_look_block b = true) ->
    In (f, ok) (snd (validate (parsefile p read) glob o names)) -> (ok = true <-> valid_file p read o f).
  Proof.
    intros L. unfold validate.
    pose proof (validate_status_all (parsefile p read) o) as T. rewrite <- fine_valid.
    assert (K : forall g, snd (parsefile p read o g) = o).
    { intros g. unfold parsefile. destruct (read g) as [ls|]; [|reflexivity]. pose proof (no_look_opts p o false None None ls L) as X.
      destruct (parse p false None None o ls) as [r o1]. exact X. }
    specialize (T K (flat_map glob names) false f ok). destruct (validate_loop _ _ _ _ _) as [b st]. exact T.
  Qed.
  Theorem validate_cut glob names f pre post d : r_send (p_ro p) = false -> In f (flat_map glob names) -> read f = Ok pre ->
    split_sections (p_ro p) (pre ++ post) = Ok d -> (exists l, In l post /\ ~ blank l) ->
    fst (validate (parsefile p read) glob o names) = 1.
  Proof.
    intros R I F D B. pose proof (validate_exit glob names) as V. destruct (validate (parsefile p read) glob o names) as [code st].
    destruct V as (C & [->| ->] & _); [|reflexivity]. exfalso. destruct C as [C _]. specialize (C eq_refl). rewrite Forall_forall in C.
    destruct (C f I) as (x & ls & L & P). rewrite F in L. injection L as <-. revert P. unfold parse, parse_tape.
    assert (exists e, split_sections (p_ro p) pre = Err e) as (e & ->); [|discriminate].
    destruct (cut_lines (p_ro p) pre post d R D B) as [C1 C2].
    destruct (forallb is_blank pre) eqn:A.
    - eexists. apply C2. rewrite Forall_forall. intros l H. rewrite forallb_forall in A. apply blank_iff, A, H.
    - eexists. apply C1. assert (existsb (fun l => negb (is_blank l)) pre = true) as X.
      { clear -A. induction pre as [|l r IH]; [discriminate|]. cbn in A |- *. destruct (is_blank l); [apply IH, A|reflexivity]. }
      apply existsb_exists in X. destruct X as (l & H & N). exists l. split; [exact H|]. intros Y. apply blank_iff in Y. rewrite Y in N. discriminate.
  Qed.

  Lemma parsefile_step t f : lenient o t -> lenient o (snd (parsefile p read t f)).
  Proof.
    intros L. unfold parsefile. destruct (read f) as [ls|]; [|exact L]. pose proof (parse_grow p t false None None ls) as G.
    destruct (parse p false None None t ls) as [r t']. exact (lenient_trans _ _ _ L G).
  Qed.
  Lemma parsefile_acc t f v : lenient o t -> fst (parsefile p read o f) = Ok v -> fst (parsefile p read t f) = Ok v.
  Proof.
    intros L. unfold parsefile. destruct (read f) as [ls|]; [|discriminate]. destruct (parse p false None None o ls) as [[d|e] o1] eqn:E; [|discriminate].
    rewrite (parse_monotone _ _ _ _ _ _ _ _ L E). auto.
  Qed.
  Theorem validate_good glob names f ok : valid_file p read o f -> In (f, ok) (snd (validate (parsefile p read) glob o names)) -> ok = true.
  Proof.
    intros V. apply fine_valid in V. unfold validate.
    pose proof (validate_fine (parsefile p read) o lenient parsefile_step parsefile_acc (flat_map glob names) o false f ok (lenient_refl o) V) as T.
    destruct (validate_loop _ _ _ _ _) as [b st]. exact T.
  Qed.
  Theorem match_good glob q names code out f d : match_files (parsefile p read) glob q o names = Ok (code, out) -> In f (flat_map glob names) ->
    reads_as p read o f d -> exists b, eval_tree_print q (as_object d) = Ok b /\ In (f, b) out.
  Proof.
    unfold match_files. destruct (match_loop _ _ _ _ _ _) as [[b out']|] eqn:E; cbn [bind fst snd]; [|discriminate]. intros H I V. injection H as _ <-.
    apply (match_fine (parsefile p read) o lenient parsefile_step parsefile_acc q _ o false [] _ f _ (lenient_refl o) E I).
    apply parsefile_reads. now exists d.
  Qed.

  Theorem match_exit glob q names code out : match_files (parsefile p read) glob q o names = Ok (code, out) ->
    (code = 0 <-> Forall (valid_file p read o) (flat_map glob names)) /\ (code = 0 \/ code = 1) /\
    (code = 0 -> forall f b, In (f, b) out <-> In f (flat_map glob names) /\ exists d, reads_as p read o f d /\ eval_tree_print q (as_object d) = Ok b).
  Proof.
    unfold match_files. destruct (match_loop _ _ _ _ _ _) as [[b out']|] eqn:E; cbn [bind fst snd]; [|discriminate]. intros H. injection H as <- <-.
    destruct (match_code _ _ parsefile_keep q _ _ _ _ E) as [C O]. rewrite forall_valid in C. split; [|split].
    - destruct b; [|tauto]. split; [lia|]. intros H. apply C in H. discriminate.
    - destruct b; [now right|now left].
    - destruct b; [lia|]. intros _. destruct (O eq_refl) as [-> Q]. cbn [app]. assert (A : Forall (valid_file p read o) (flat_map glob names)) by now apply C.
      rewrite Forall_forall in Q, A. intros f b. rewrite in_map_iff. split.
      + intros (g & X & I). injection X as -> <-. split; [exact I|]. destruct (A f I) as (d & R). exists d. split; [exact R|].
        assert (fst (parsefile p read o f) = Ok (as_object d)) as V by (apply parsefile_reads; now exists d).
        rewrite V. destruct (Q f I _ V) as (x & ->). reflexivity.
      + intros (I & d & R & V). exists f. split; [|exact I]. f_equal.
        assert (fst (parsefile p read o f) = Ok (as_object d)) as -> by (apply parsefile_reads; now exists d). now rewrite V.
  Qed.

  Theorem compare_exit atol rtol f1 f2 :
    (compare_files (parsefile p read) atol rtol o f1 f2 = 0 <->
       exists d1 d2, reads_as p read o f1 d1 /\ reads_as p read o f2 d2 /\ same (tolerance atol rtol) (as_object d1) (as_object d2)) /\
    (compare_files (parsefile p read) atol rtol o f1 f2 = 0 \/ compare_files (parsefile p read) atol rtol o f1 f2 = 1).
  Proof.
    unfold compare_files. fold (tolerance atol rtol).
    pose proof (parsefile_reads f1) as R1. pose proof (parsefile_reads f2) as R2.
    destruct (parsefile p read o f1) as [[a|e] o1] eqn:E1; cbn [fst] in R1.
    2:{ split; [|now right]. split; [lia|]. intros (d1 & d2 & X & _). assert (Err e = Ok (as_object d1)) as Y by (apply R1; now exists d1). discriminate Y. }
    apply parsefile_keep in E1. subst o1. destruct (parsefile p read o f2) as [[b|e] o2]; cbn [fst] in R2.
    2:{ split; [|now right]. split; [lia|]. intros (d1 & d2 & _ & X & _). assert (Err e = Ok (as_object d2)) as Y by (apply R2; now exists d2). discriminate Y. }
    destruct (compare_log (tolerance atol rtol) a b eq_refl) as (r & ds & -> & C & _). cbn [fst].
    destruct (proj1 (R1 a) eq_refl) as (d1 & X1 & ->). destruct (proj1 (R2 b) eq_refl) as (d2 & X2 & ->). split.
    - destruct r; split; try lia.
      + intros _. exists d1, d2. split; [exact X1|]. split; [exact X2|]. now apply C.
      + intros (e1 & e2 & Y1 & Y2 & Z). assert (Ok (as_object d1) = Ok (as_object e1)) as Q1 by (apply R1; now exists e1).
        assert (Ok (as_object d2) = Ok (as_object e2)) as Q2 by (apply R2; now exists e2). rewrite Q1, Q2 in *. 
        injection Q1 as Q1. injection Q2 as Q2. exfalso. assert (same (tolerance atol rtol) (as_object d1) (as_object d2)) as W by (unfold as_object; rewrite Q1, Q2; exact Z).
        apply C in W. discriminate.
    - destruct r; [now left|now right].
  Qed.
End Python.
