(** C31: conditionals with lookahead that choose nothing. A recipe with a stop instruction in
    the place of the missing [else] does what the recipe does, unless it stops. *)
From Coq Require Import Ascii String ZArith Bool Lia List.
From Coq Require Import Floats.SpecFloat.
From Verif Require Import PyBase PyFloat ModelFortran ModelRecords ModelNum ModelRecipe ModelInterp.
From Verif Require Import SpecFields SpecLibm SpecTape SpecInterp SpecRound ProofPyBase ProofInterp ProofInterpCtl ProofRound9.
Import ListNotations.
Open Scope Z_scope.

Definition fine {A} (r : result A) : Prop := match r with Ok _ | Err UnexpectedControlRecordError => True | _ => False end.
(** [m'] does what [m] does if [m] ends well or at the end of a section *)
Definition refines {A} (m m' : M A) : Prop := forall st r st', m st = (r, st') -> fine r -> m' st = (r, st').

Lemma refines_refl {A} (m : M A) : refines m m.
Proof. intros st r st' H _. exact H. Qed.
Lemma refines_bind {A B} (m m' : M A) (f f' : A -> M B) : refines m m' -> (forall a, refines (f a) (f' a)) -> refines (mbind m f) (mbind m' f').
Proof.
  intros R1 R2 st r st' H F. unfold mbind in *. destruct (m st) as [[a|e] s1] eqn:E.
  - rewrite (R1 _ _ _ E I). now apply R2.
  - injection H as <- <-. rewrite (R1 _ _ _ E F). reflexivity.
Qed.
Lemma refines_guarded b m m' : refines m m' -> refines (guarded b m) (guarded b m').
Proof. intros R. apply refines_bind; [apply refines_refl|]. intros [|]; [exact R|apply refines_refl]. Qed.
Lemma refines_iterate v m m' l : refines m m' -> refines (iterate v l m) (iterate v l m').
Proof.
  intros R. induction l as [|i l IH]; [apply refines_refl|]. cbn [iterate]. apply refines_bind; [apply refines_refl|]. intros _.
  apply refines_bind; [exact R|]. intros _. exact IH.
Qed.
Lemma refines_loop en v a b m m' : refines m m' -> refines (cycle_for_loop en v a b m) (cycle_for_loop en v a b m').
Proof.
  intros R. unfold cycle_for_loop. do 4 (apply refines_bind; [apply refines_refl|]; intros ?). intros st r st' H F.
  destruct (lget v (ps_loops st)); [exact H|]. revert H F. refine (refines_bind _ _ _ _ (refines_iterate _ _ _ _ R) (fun _ => refines_refl _) st r st').
Qed.
Lemma refines_if en c la m m' : refines m m' -> refines (if_statement en c la m) (if_statement en c la m').
Proof.
  intros R. destruct la as [k|]; [|apply refines_refl]. cbn [if_statement]. destruct (e_write en); [apply refines_refl|].
  do 2 (apply refines_bind; [apply refines_refl|]; intros ?). intros st r st' H F.
  destruct (ps_look st); [exact H|]. cbv zeta in *.
  destruct (m (set_look (Some a0) (set_opts (all_ignored (ps_opts st)) st))) as [q s2] eqn:E.
  assert (Fq : fine q). { destruct q as [|[]]; try exact I; injection H as <- <-; exact F. }
  rewrite (R _ _ _ E Fq). exact H.
Qed.

Lemma stop_nothing en : refines (exec_block en (BCons IStop BNil)) (exec_block en BNil).
Proof.
  intros st r st' H F. rewrite exec_cons_eq in H. unfold mbind at 1, should_proceed in H. rewrite exec_nil_eq.
  destruct (ps_look st) as [n|] eqn:L.
  - destruct (n =? 0) eqn:N; [exact H|]. cbn [exec] in H. unfold guarded, mbind at 1, mbind at 1, should_proceed in H. rewrite L, N in H. exfalso.
    unfold do_stop in H. destruct (e_write en); [injection H as <- <-; exact F|]. unfold get_line in H. destruct (nth_error _ _); injection H as <- <-; exact F.
  - cbn [exec] in H. unfold guarded, mbind at 1, mbind at 1, should_proceed in H. rewrite L in H. exfalso.
    unfold do_stop in H. destruct (e_write en); [injection H as <- <-; exact F|]. unfold get_line in H. destruct (nth_error _ _); injection H as <- <-; exact F.
Qed.

Lemma closed_refines en :
  (forall i, refines (exec en (closed_instr i)) (exec en i)) /\
  (forall b, refines (exec_block en (closed b)) (exec_block en b)) /\
  (forall b, refines (test_branch en (closed_branch b)) (test_branch en b) /\ refines (exec_branch en (closed_branch b)) (exec_branch en b)) /\
  (forall r el el', refines el el' -> refines (exec_branches en (closed_branches r) el) (exec_branches en r el')).
Proof.
  apply recipe_mut; intros; try apply refines_refl.
  - cbn [closed_instr]. rewrite !exec_section_eq. apply refines_guarded. destruct (negb _); [apply refines_refl|].
    do 2 (apply refines_bind; [apply refines_refl|]; intros _). apply refines_bind; [exact H|]. intros _. apply refines_refl.
  - cbn [closed_instr]. rewrite !exec_for_eq. apply refines_guarded, refines_loop. exact H.
  - cbn [closed_instr]. rewrite !exec_if_eq. apply refines_guarded. destruct H as [Ha Hb]. apply refines_bind; [exact Ha|].
    intros [|]; [exact Hb|]. apply H0.
    destruct els as [|i r]; [|exact H1]. cbn [closed closed_else]. destruct (looks_ahead first || any_ahead more); [apply stop_nothing|apply refines_refl].
  - cbn [closed]. rewrite !exec_cons_eq. apply refines_bind; [apply refines_refl|]. intros [|]; [|apply refines_refl].
    apply refines_bind; [exact H|]. intros _. exact H0.
  - cbn [closed_branch]. rewrite !test_branch_eq, !exec_branch_eq. split; [now apply refines_if|exact H].
  - cbn [closed_branches]. rewrite !exec_rnil_eq. exact H.
  - cbn [closed_branches]. rewrite !exec_rcons_eq. destruct H as [Ha Hb]. apply refines_bind; [exact Ha|]. intros [|]; [exact Hb|]. now apply H0.
Qed.

Lemma closed_send b : closed (then_send b) = then_send (closed b).
Proof. induction b as [|i r IH]; [reflexivity|]. cbn [then_send closed]. now rewrite IH. Qed.
Lemma closed_run en b : refines (run_section en (then_send (closed b))) (run_section en (then_send b)).
Proof.
  unfold run_section. apply refines_bind; [apply refines_refl|]. intros _. apply refines_bind; [|intros _; apply refines_refl].
  rewrite <- closed_send. apply (proj1 (proj2 (closed_refines en))).
Qed.
Lemma closed_write en explain b o mf mt d x d' :
  write_recipe en explain (then_send (closed b)) o mf mt d = (Ok x, d') -> write_recipe en explain (then_send b) o mf mt d = (Ok x, d').
Proof.
  unfold write_recipe. destruct (set_ctrl_default _ mf d) as [d1 ok1]. destruct (negb ok1); [discriminate|].
  destruct (set_ctrl_default _ mt d1) as [d2 ok2]. destruct (negb ok2); [discriminate|].
  destruct (run_section en (then_send (closed b)) _) as [r s] eqn:R. destruct r as [[]|e].
  - rewrite (closed_run _ _ _ _ _ R I). auto.
  - destruct (unwind _ _ _). discriminate.
Qed.
Lemma closed_parse en b o lines d o' :
  parse_recipe en (then_send (closed b)) o lines = (Ok d, o') -> parse_recipe en (then_send b) o lines = (Ok d, o').
Proof.
  unfold parse_recipe. destruct (run_section en (then_send (closed b)) _) as [r s] eqn:R. destruct r as [[]|e]; [|discriminate].
  rewrite (closed_run _ _ _ _ _ R I). auto.
Qed.

Theorem closed_round_trip wo ro blank depth G b explain o mf mt d lines c d' :
  field_width wo -> r_width ro = w_width wo -> good_schema G -> readable_recipe G (6 * w_width wo) (closed b) = true ->
  conforms wo ro G d -> Z.abs mf <= 2 ^ 53 -> Z.abs mt <= 2 ^ 53 ->
  write_recipe (write_env ro wo blank depth) explain (then_send (closed b)) o mf mt d = (Ok (lines, c), d') ->
  in_columns wo lines ->
  write_recipe (write_env ro wo blank depth) explain (then_send b) o mf mt d = (Ok (lines, c), d') /\
  forall o' tape, o_all o' = false -> o_fuzzy o' = false -> at_lines lines tape 0 ->
  exists r, parse_recipe (read_env ro wo depth) (then_send b) o' tape = (Ok r, o') /\
    printed_part wo ro G (numbered mf mt d) r /\
    forall e, thinned r (numbered mf mt d) e ->
      exists e', write_recipe (write_env ro wo blank depth) explain (then_send b) o mf mt e = (Ok (lines, c), e').
Proof.
  intros FW RW GG RB C F T H IC. split; [exact (closed_write _ _ _ _ _ _ _ _ _ H)|]. intros o' tape OA OF A.
  destruct (round_trip wo ro blank depth G (closed b) explain o mf mt d lines c d' FW RW GG RB C F T H IC o' tape OA OF A) as (r & Hr & P & E).
  exists r. split; [exact (closed_parse _ _ _ _ _ _ Hr)|]. split; [exact P|]. intros e Te. destruct (E e Te) as (e' & He).
  exists e'. exact (closed_write _ _ _ _ _ _ _ _ _ He).
Qed.
