(** Basic facts about the recipe interpreter. *)
From Coq Require Import Ascii String ZArith Bool Lia List.
From Coq Require Import Floats.SpecFloat.
From Verif Require Import PyBase PyFloat ModelFortran ModelRecords ModelNum ModelRecipe ModelInterp.
From Verif Require Import SpecInterp ProofPyBase.
Import ListNotations.
Open Scope Z_scope.

Scheme instr_mut := Induction for instr Sort Prop
  with block_mut := Induction for block Sort Prop
  with branch_mut := Induction for branch Sort Prop
  with branches_mut := Induction for branches Sort Prop.
Combined Scheme recipe_mut from instr_mut, block_mut, branch_mut, branches_mut.
Scheme litem_mut := Induction for litem Sort Prop
  with lbody_mut := Induction for lbody Sort Prop.
Combined Scheme lrecipe_mut from litem_mut, lbody_mut.

(** ** Computations *)

Lemma mbind_inv {A B} (m : M A) (f : A -> M B) s r s' :
  mbind m f s = (r, s') ->
  (exists a s1, m s = (Ok a, s1) /\ f a s1 = (r, s')) \/
  (exists e, m s = (Err e, s') /\ r = Err e).
Proof.
  unfold mbind. destruct (m s) as [[a|e] s1] eqn:E; intros H.
  - left. exists a, s1. split; [reflexivity | exact H].
  - right. injection H as <- <-. exists e. split; reflexivity.
Qed.

Lemma mbind_ok {A B} (m : M A) (f : A -> M B) s b s' :
  mbind m f s = (Ok b, s') -> exists a s1, m s = (Ok a, s1) /\ f a s1 = (Ok b, s').
Proof.
  intros H. apply mbind_inv in H. destruct H as [H | (e & _ & H)]; [exact H | discriminate H].
Qed.

(** [R] holds between the states before and after a successful computation *)
Definition keeps {A} (R : pstate -> pstate -> Prop) (m : M A) : Prop :=
  forall s a s', m s = (Ok a, s') -> R s s'.

Record preorder (R : pstate -> pstate -> Prop) : Prop := {
  po_refl : forall s, R s s;
  po_trans : forall a b c, R a b -> R b c -> R a c
}.

Lemma keeps_bind {A B} R (m : M A) (f : A -> M B) :
  preorder R -> keeps R m -> (forall a, keeps R (f a)) -> keeps R (mbind m f).
Proof.
  intros P Hm Hf s b s' H. apply mbind_ok in H. destruct H as (a & s1 & H1 & H2).
  apply (po_trans _ P) with s1; [exact (Hm _ _ _ H1) | exact (Hf _ _ _ _ H2)].
Qed.

Lemma keeps_ret {A} R (a : A) : preorder R -> keeps R (ret a).
Proof. intros P s b s' H. injection H as _ <-. apply (po_refl _ P). Qed.
Lemma keeps_fail {A} R (e : exn) : keeps R (@fail A e).
Proof. intros s b s' H. discriminate H. Qed.
Lemma keeps_lift {A} R (r : result A) : preorder R -> keeps R (lift r).
Proof. intros P s b s' H. injection H as _ <-. apply (po_refl _ P). Qed.
Lemma keeps_read {A} R (f : pstate -> result A) : preorder R -> keeps R (fun s => (f s, s)).
Proof. intros P s b s' H. injection H as _ <-. apply (po_refl _ P). Qed.
Lemma keeps_modify (R : pstate -> pstate -> Prop) f : (forall s, R s (f s)) -> keeps R (modify f).
Proof. intros P s b s' H. injection H as _ <-. apply P. Qed.

(** ** Equations *)

Section Equations.
  Variable en : env.
  Lemma exec_section_eq h t b : exec en (ISection h t b) =
    guarded false
      (if negb (str_eqb (fst h) (fst t)) then fail InconsistentSectionBracketsError else
       run _ <- open_section en h;
       run _ <- modify (fun s => set_dic (init_working (ps_dic s)) s);
       run _ <- exec_block en b;
       run _ <- remove_working;
       close_section).
  Proof. reflexivity. Qed.
  Lemma exec_for_eq v a b body : exec en (IFor v a b body) =
    guarded false (cycle_for_loop en v a b (exec_block en body)).
  Proof. reflexivity. Qed.
  Lemma exec_if_eq first more els : exec en (IIf first more els) =
    guarded false
      (run t <- test_branch en first;
       if t then exec_branch en first else exec_branches en more (exec_block en els)).
  Proof. reflexivity. Qed.
  Lemma exec_cons_eq i r : exec_block en (BCons i r) =
    (run p <- should_proceed false; if p then run _ <- exec en i; exec_block en r else ret tt).
  Proof. reflexivity. Qed.
  Lemma exec_nil_eq : exec_block en BNil = ret tt.
  Proof. reflexivity. Qed.
  Lemma exec_branch_eq c la b : exec_branch en (Branch c la b) = exec_block en b.
  Proof. reflexivity. Qed.
  Lemma test_branch_eq c la b : test_branch en (Branch c la b) = if_statement en c la (exec_block en b).
  Proof. reflexivity. Qed.
  Lemma exec_rnil_eq els : exec_branches en RNil els = els.
  Proof. reflexivity. Qed.
  Lemma exec_rcons_eq b r els : exec_branches en (RCons b r) els =
    (run t <- test_branch en b; if t then exec_branch en b else exec_branches en r els).
  Proof. reflexivity. Qed.
  Lemma list_loop_eq v a b body : list_item en (LLoop v a b body) = cycle_list_loop en v a b (list_body en body).
  Proof. reflexivity. Qed.
  Lemma list_cons_eq i r : list_body en (LCons i r) = (fun ls => run ls' <- list_item en i ls; list_body en r ls').
  Proof. reflexivity. Qed.
End Equations.

(** ** Readers advance *)

Lemma bind_ok {A B} (r : result A) (f : A -> result B) b :
  bind r f = Ok b -> exists a, r = Ok a /\ f a = Ok b.
Proof. destruct r as [a|e]; cbn [bind]; intros H; [exists a; auto | discriminate H]. Qed.

Lemma get_line_lt ls p l : get_line ls p = Ok l -> (p < length ls)%nat.
Proof.
  unfold get_line. intros H. apply nth_error_Some. destruct (nth_error ls p); [discriminate | discriminate H].
Qed.

Ltac binds H :=
  repeat match type of H with
         | bind _ _ = Ok _ => let x := fresh "x" in let E := fresh "E" in
                              apply bind_ok in H; destruct H as (x & E & H)
         end.

Lemma read_text_adv ro ls p x p' : read_text ro ls p = Ok (x, p') -> (p < p' <= length ls)%nat.
Proof.
  unfold read_text. intros H. binds H. injection H as _ <-.
  match goal with E : get_line _ _ = _ |- _ => apply get_line_lt in E end. lia.
Qed.
Lemma read_cont_adv ro ls p x p' : read_cont ro ls p = Ok (x, p') -> (p < p' <= length ls)%nat /\ p' = S p.
Proof.
  unfold read_cont. intros H. binds H. injection H as _ <-.
  match goal with E : get_line _ _ = _ |- _ => apply get_line_lt in E end. lia.
Qed.
Lemma read_dir_adv ro ls p x p' : read_dir ro ls p = Ok (x, p') -> (p < p' <= length ls)%nat.
Proof.
  unfold read_dir. intros H. binds H. injection H as _ <-.
  match goal with E : get_line _ _ = _ |- _ => apply get_line_lt in E end. lia.
Qed.
Lemma read_intg_adv ro n ls p x p' : read_intg ro n ls p = Ok (x, p') -> (p < p' <= length ls)%nat.
Proof.
  unfold read_intg. destruct (_ || _); [discriminate|]. intros H. binds H. injection H as _ <-.
  match goal with E : get_line _ _ = _ |- _ => apply get_line_lt in E end. lia.
Qed.
Lemma read_loop_adv ro fuel : forall ls n p x p',
  (p <= length ls)%nat -> read_numbers_loop ro fuel ls n p = Ok (x, p') -> (p <= p' <= length ls)%nat.
Proof.
  induction fuel as [|f IH]; intros ls n p x p' L H; cbn [read_numbers_loop] in H.
  - injection H as _ <-. lia.
  - destruct (n <=? 0); [injection H as _ <-; lia|]. binds H.
    destruct x2 as [rest q]. injection H as _ <-.
    apply get_line_lt in E. apply IH in E1; lia.
Qed.
Lemma read_numbers_adv ro ti ls n p x p' :
  (p <= length ls)%nat -> read_endf_numbers ro ti ls n p = Ok (x, p') -> (p <= p' <= length ls)%nat.
Proof.
  intros L. unfold read_endf_numbers. intros H. binds H. destruct x0 as [vals q].
  apply read_loop_adv in E; [|exact L].
  destruct ti; [|injection H as _ <-; exact E].
  destruct (mapM to_int1 vals) as [i|e]; [injection H as _ <-; exact E|].
  destruct e; try discriminate H. injection H as _ <-. exact E.
Qed.
Lemma read_list_adv ro ls p x p' : read_list ro ls p = Ok (x, p') -> (p < p' <= length ls)%nat.
Proof.
  unfold read_list. intros H. binds H. destruct x0 as [[r c] q]. apply read_cont_adv in E.
  destruct (num_as_Z (N1 r) =? 0).
  - injection H as _ <-. lia.
  - binds H. destruct x0 as [vals q']. injection H as _ <-.
    apply read_numbers_adv in E0; lia.
Qed.
Lemma read_tab2_adv ro ls p x p' : read_tab2 ro ls p = Ok (x, p') -> (p < p' <= length ls)%nat.
Proof.
  unfold read_tab2. intros H. binds H. destruct x1 as [[r c] q]. apply read_cont_adv in E0.
  binds H. destruct x1 as [vals q']. binds H. injection H as _ <-.
  apply read_numbers_adv in E1; lia.
Qed.
Lemma read_tab1_adv ro ls p x p' : read_tab1 ro ls p = Ok (x, p') -> (p < p' <= length ls)%nat.
Proof.
  unfold read_tab1. intros H. binds H. destruct x1 as [[r c] q]. apply read_cont_adv in E0.
  binds H. destruct x1 as [tbl q']. binds H. injection H as _ <-.
  unfold read_tab1_body_lines in E1. binds E1. destruct x2 as [iv q1]. binds E1.
  destruct x2 as [fv q2]. injection E1 as _ <-.
  apply read_numbers_adv in E3; [|lia]. apply read_numbers_adv in E4; lia.
Qed.

(** ** Lookahead *)

(** a successful lookahead restores the state *)
Lemma if_statement_state en c la body s t s' : if_statement en c la body s = (Ok t, s') -> s' = s.
Proof.
  unfold if_statement. destruct la as [k|].
  - destruct (e_write en).
    + intros H. injection H as _ <-. reflexivity.
    + intros H. apply mbind_ok in H. destruct H as (v & s1 & H1 & H).
      unfold eval_ctl in H1. injection H1 as _ <-.
      apply mbind_ok in H. destruct H as (n & s2 & H1 & H). injection H1 as _ <-.
      destruct (ps_look s); [discriminate H|].
      destruct (body _) as [[u|e] s2].
      * destruct (unwind _ _ _) as [up d]. destruct (truthvalue _ _ _); [|discriminate H].
        injection H as _ <-. reflexivity.
      * destruct e; try discriminate H.
        destruct (unwind _ _ _) as [up d]. destruct (truthvalue _ _ _); [|discriminate H].
        injection H as _ <-. reflexivity.
  - intros H. injection H as _ <-. reflexivity.
Qed.

Lemma test_branch_state en b s t s' : test_branch en b s = (Ok t, s') -> s' = s.
Proof. destruct b as [c la body]. cbn [test_branch]. apply if_statement_state. Qed.

(** ** Invariants of execution *)

Section Keeps.
  Variable en : env.
  Variable R : pstate -> pstate -> Prop.
  Hypothesis P : preorder R.
  Hypothesis H_dic : forall d s, R s (set_dic d s).
  Hypothesis H_look : forall n k s, ps_look s = Some n -> R s (set_look k s).
  Hypothesis H_read : forall A (rd : list str -> nat -> result (A * nat)) s o a o',
    e_write en = false ->
    (forall ls p x p', rd ls p = Ok (x, p') -> (p < p' <= length ls)%nat) ->
    skip_blank_lines (ps_lines s) (ps_ofs s) = Ok o -> rd (ps_lines s) o = Ok (a, o') ->
    R s (advance o o' s).
  Variable sends : bool.
  Hypothesis H_send : sends = true -> keeps R (do_send en).
  Hypothesis H_add : forall ls s, e_write en = true -> R s (add_lines ls s).
  Hypothesis H_sec : forall A u (m : M A), keeps R m ->
    keeps R (run _ <- open_section en u; run a <- m; run _ <- close_section; ret a).
  Hypothesis H_for : forall v a b body, keeps R body -> keeps R (cycle_for_loop en v a b body).
  Hypothesis H_lfor : forall v a b body, (forall ls, keeps R (body ls)) ->
    forall ls, keeps R (cycle_list_loop en v a b body ls).

  Lemma k_set_var u v : keeps R (set_var u v).
  Proof.
    intros s a s' H. destruct u as [x ix]. unfold set_var in H. destruct ix as [|q ix].
    - injection H as _ <-. apply H_dic.
    - destruct (bind _ _) as [arr|e]; [injection H as _ <-; apply H_dic | discriminate H].
  Qed.

  Lemma k_map_field src e : keeps R (map_field en src e).
  Proof.
    intros s a s' H. unfold map_field in H.
    destruct (eval_expr _ _ _ _ _ _) as [[[c k] [u|]]|er] eqn:E.
    - destruct (solve _ _ _ _) as [v|er].
      + refine (keeps_bind R _ _ P (k_set_var u v) _ _ _ _ H). intros _. apply keeps_ret. exact P.
      + discriminate H.
    - destruct (negb (coef0 k)); [discriminate H|].
      destruct (check_value _ _ _ _); [|discriminate H]. injection H as _ <-. apply (po_refl _ P).
    - destruct er; try discriminate H. injection H as _ <-. apply (po_refl _ P).
  Qed.

  Lemma k_map_fields fs : keeps R (map_fields en fs).
  Proof.
    induction fs as [|[src e] r IH]; cbn [map_fields]; [apply keeps_ret; exact P|].
    apply keeps_bind; [exact P | apply k_map_field |]. intros a.
    apply keeps_bind; [exact P | exact IH |]. intros b. apply keeps_ret. exact P.
  Qed.

  Lemma k_map_read fs : keeps R (map_read en fs).
  Proof.
    unfold map_read. generalize 3%nat as n.
    induction n as [|n IH]; cbn [map_tries]; [apply keeps_fail|].
    apply keeps_bind; [exact P | apply k_map_fields |].
    intros [|]; [exact IH | apply keeps_ret; exact P].
  Qed.

  Lemma k_read_with {A} (rd : list str -> nat -> result (A * nat)) :
    e_write en = false ->
    (forall ls p x p', rd ls p = Ok (x, p') -> (p < p' <= length ls)%nat) -> keeps R (read_with rd).
  Proof.
    intros W Hrd s a s' H. unfold read_with in H.
    destruct (skip_blank_lines _ _) as [o|e] eqn:E; [|discriminate H].
    destruct (rd _ _) as [[x o']|e] eqn:E2; [|discriminate H].
    injection H as _ <-. exact (H_read A rd s o x o' W Hrd E E2).
  Qed.

  Lemma k_write_with r : e_write en = true -> keeps R (write_with r).
  Proof.
    intros W s a s' H. unfold write_with in H. destruct (r s); [|discriminate H].
    injection H as _ <-. apply H_add. exact W.
  Qed.

  Lemma k_map_write es : keeps R (map_write en es).
  Proof. apply keeps_read. exact P. Qed.
  Lemma k_eval_ctl e : keeps R (eval_ctl en e).
  Proof. apply keeps_read. exact P. Qed.
  Lemma k_spec_read cs c : keeps R (check_spec_read cs c).
  Proof. apply keeps_lift. exact P. Qed.
  Lemma k_spec_write cs : keeps R (check_spec_write cs).
  Proof. intros s a s' H. unfold check_spec_write in H. injection H as _ <-. apply (po_refl _ P). Qed.
  Lemma k_update_ctrl c : keeps R (update_ctrl c).
  Proof. apply keeps_modify. intros s. apply H_dic. Qed.

  Lemma k_text_read fs : forall full pos, keeps R (text_read fs full pos).
  Proof.
    induction fs as [|[u len] r IH]; intros full pos; cbn [text_read]; [apply keeps_ret; exact P|].
    destruct (Nat.leb _ _); [apply keeps_fail|].
    apply keeps_bind; [exact P | |intros _; apply IH].
    destruct u; [apply k_set_var | apply keeps_ret; exact P].
  Qed.

  Lemma k_should_proceed b : keeps R (should_proceed b).
  Proof.
    intros s a s' H. unfold should_proceed in H. destruct (ps_look s) as [n|] eqn:E.
    - destruct (n =? 0); [injection H as _ <-; apply (po_refl _ P)|].
      injection H as _ <-. destruct b; [apply (H_look n); exact E | apply (po_refl _ P)].
    - injection H as _ <-. apply (po_refl _ P).
  Qed.

  Lemma k_in_section {A} name (m : M A) : keeps R m -> keeps R (in_section en name m).
  Proof. intros Hm. unfold in_section. destruct name; [apply H_sec; exact Hm | exact Hm]. Qed.

  Lemma k_if_proceed {A} (d : A) m : keeps R m -> keeps R (if_proceed d m).
  Proof.
    intros Hm. unfold if_proceed. apply keeps_bind; [exact P | apply k_should_proceed |].
    intros [|]; [exact Hm | apply keeps_ret; exact P].
  Qed.

  Lemma k_list : (forall i ls, keeps R (list_item en i ls)) /\ (forall b ls, keeps R (list_body en b ls)).
  Proof.
    apply lrecipe_mut.
    - intros e [vals pos]. cbn [list_item]. unfold list_expr. case (e_write en).
      + apply keeps_bind; [exact P | apply k_map_write |]. intros vs.
        destruct vs as [|v [|]]; try apply keeps_fail.
        apply keeps_bind; [exact P | apply keeps_lift; exact P |]. intros n. apply keeps_ret. exact P.
      + destruct (nth_error vals pos); [|apply keeps_fail].
        apply keeps_bind; [exact P | apply k_map_read |]. intros _. apply keeps_ret. exact P.
    - intros [vals pos]. apply keeps_ret. exact P.
    - intros v a b body IH ls. rewrite list_loop_eq. apply H_lfor. exact IH.
    - intros ls. apply keeps_ret. exact P.
    - intros i IHi b IHb ls. rewrite list_cons_eq. apply keeps_bind; [exact P | apply IHi | exact IHb].
  Qed.

  Lemma k_introduce x e : keeps R (introduce x e).
  Proof.
    intros s a s' H. unfold introduce in H.
    destruct (dget (KStr x) (ps_dic s)).
    - destruct (existsb _ _); [injection H as _ <-; apply H_dic | discriminate H].
    - injection H as _ <-. apply H_dic.
  Qed.

  Lemma k_remove_working : keeps R remove_working.
  Proof.
    intros s a s' H. unfold remove_working in H.
    destruct (dget _ _) as [v|]; [|discriminate H]. destruct v; try discriminate H.
    destruct (del_names _ _); [|discriminate H]. injection H as _ <-. apply H_dic.
  Qed.

  Ltac kstep :=
    match goal with
    | |- keeps _ (mbind _ _) => apply keeps_bind; [exact P | |]
    | |- keeps _ (ret _) => apply keeps_ret; exact P
    | |- keeps _ (fail _) => apply keeps_fail
    | |- keeps _ (lift _) => apply keeps_lift; exact P
    | |- keeps _ (map_read _ _) => apply k_map_read
    | |- keeps _ (map_write _ _) => apply k_map_write
    | |- keeps _ (eval_ctl _ _) => apply k_eval_ctl
    | |- keeps _ (check_spec_read _ _) => apply k_spec_read
    | |- keeps _ (check_spec_write _) => apply k_spec_write
    | |- keeps _ (update_ctrl _) => apply k_update_ctrl
    | |- keeps _ (text_read _ _ _) => apply k_text_read
    | |- keeps _ (should_proceed _) => apply k_should_proceed
    | |- keeps _ (in_section _ _ _) => apply k_in_section
    | |- keeps _ (if_proceed _ _) => apply k_if_proceed
    | |- keeps _ (write_with _) => apply k_write_with; assumption
    | |- keeps _ (list_body _ _ _) => apply (proj2 k_list)
    | |- keeps _ (fun s => (_, s)) => apply keeps_read; exact P
    | |- keeps _ (let '(_, _) := ?x in _) => destruct x
    | |- keeps _ (if ?b then _ else _) => destruct b
    | |- forall _, _ => intros ?
    end.

  Lemma k_do_cont head cs f : keeps R (do_cont en head cs f).
  Proof.
    unfold do_cont. case_eq (e_write en); intros W; repeat kstep.
    apply k_read_with; [exact W|]. intros ls p x p' H. apply read_cont_adv in H. lia.
  Qed.
  Lemma k_do_text cs f : keeps R (do_text en cs f).
  Proof.
    unfold do_text. case_eq (e_write en); intros W; repeat kstep.
    apply k_read_with; [exact W|]. intros ls p x p' H. apply read_text_adv in H. lia.
  Qed.
  Lemma k_do_dir cs es : keeps R (do_dir en cs es).
  Proof.
    unfold do_dir. case_eq (e_write en); intros W; repeat kstep.
    apply k_read_with; [exact W|]. intros ls p x p' H. apply read_dir_adv in H. lia.
  Qed.
  Lemma k_do_intg cs ii jj kij nd : keeps R (do_intg en cs ii jj kij nd).
  Proof.
    unfold do_intg. case_eq (e_write en); intros W; repeat kstep.
    - intros s a s' H. destruct (skip_blank_lines _ _); [|discriminate H].
      injection H as _ <-. apply (po_refl _ P).
    - apply k_read_with; [exact W|]. intros ls p x1 p' H. apply read_intg_adv in H. lia.
  Qed.
  Lemma k_do_tab1 cs f x y name : keeps R (do_tab1 en cs f x y name).
  Proof.
    unfold do_tab1. case_eq (e_write en); intros W; repeat kstep.
    apply k_read_with; [exact W|]. intros ls p z p' H. apply read_tab1_adv in H. lia.
  Qed.
  Lemma k_do_tab2 cs f name : keeps R (do_tab2 en cs f name).
  Proof.
    unfold do_tab2. case_eq (e_write en); intros W; repeat kstep.
    apply k_read_with; [exact W|]. intros ls p z p' H. apply read_tab2_adv in H. lia.
  Qed.
  Lemma k_do_list cs f body name : keeps R (do_list en cs f body name).
  Proof.
    unfold do_list. case_eq (e_write en); intros W; repeat kstep.
    apply k_read_with; [exact W|]. intros ls p z p' H. apply read_list_adv in H. lia.
  Qed.

  Lemma k_guarded b m : keeps R m -> keeps R (guarded b m).
  Proof. intros Hm. unfold guarded. kstep; [apply k_should_proceed|]. intros [|]; [exact Hm | repeat kstep]. Qed.

  Theorem exec_keeps :
    (forall i, (sends = false -> no_send i = true) -> keeps R (exec en i)) /\
    (forall b, (sends = false -> no_send_block b = true) -> keeps R (exec_block en b)) /\
    (forall b, (sends = false -> no_send_branch b = true) -> keeps R (exec_branch en b)) /\
    (forall r, (sends = false -> no_send_branches r = true) ->
       forall els, keeps R els -> keeps R (exec_branches en r els)).
  Proof.
    apply recipe_mut; intros;
      rewrite ?exec_section_eq, ?exec_for_eq, ?exec_if_eq, ?exec_cons_eq, ?exec_nil_eq, ?exec_branch_eq,
        ?exec_rcons_eq.
    - apply k_guarded, k_do_cont.
    - apply k_guarded, k_do_text.
    - apply k_guarded, k_do_dir.
    - apply k_guarded, k_do_intg.
    - apply k_guarded, k_do_tab1.
    - apply k_guarded, k_do_tab2.
    - apply k_guarded, k_do_list.
    - apply k_guarded, H_send. destruct sends; [reflexivity|]. discriminate (H eq_refl).
    - apply k_guarded. intros s a s' E. unfold do_stop in E. destruct (e_write en); [discriminate E|].
      destruct (get_line _ _); discriminate E.
    - apply k_guarded. destruct (negb _); [repeat kstep|].
      intros s a s' E. apply (H_sec unit head (run _ <- modify (fun s => set_dic (init_working (ps_dic s)) s);
        run _ <- exec_block en body; remove_working)) with (a := tt).
      + repeat kstep; [apply keeps_modify; intros; apply H_dic | exact (H H0) | apply k_remove_working].
      + apply mbind_ok in E. destruct E as ([] & s1 & E1 & E).
        apply mbind_ok in E. destruct E as ([] & s2 & E2 & E).
        apply mbind_ok in E. destruct E as ([] & s3 & E3 & E).
        apply mbind_ok in E. destruct E as ([] & s4 & E4 & E).
        unfold mbind. rewrite E1, E2, E3, E4, E. destruct a. reflexivity.
    - apply k_guarded, H_for. exact (H H0).
    - assert (N : sends = false -> no_send_branch first = true /\ no_send_branches more = true /\ no_send_block els = true).
      { intros Q. specialize (H2 Q). cbn [no_send] in H2. rewrite !andb_true_iff in H2. tauto. }
      apply k_guarded. intros s a s' E. apply mbind_ok in E. destruct E as (t & s1 & E1 & E).
      apply test_branch_state in E1. subst s1.
      destruct t; [exact (H (fun Q => proj1 (N Q)) _ _ _ E)|].
      exact (H0 (fun Q => proj1 (proj2 (N Q))) _ (H1 (fun Q => proj2 (proj2 (N Q)))) _ _ _ E).
    - apply k_guarded, k_introduce.
    - repeat kstep.
    - assert (N : sends = false -> no_send i = true /\ no_send_block b = true).
      { intros Q. specialize (H1 Q). cbn [no_send_block] in H1. rewrite andb_true_iff in H1. exact H1. }
      apply keeps_bind; [exact P | apply k_should_proceed |]. intros [|]; [|repeat kstep].
      apply keeps_bind; [exact P | exact (H (fun Q => proj1 (N Q))) |]. intros _. exact (H0 (fun Q => proj2 (N Q))).
    - exact (H H0).
    - rewrite exec_rnil_eq. exact H0.
    - assert (N : sends = false -> no_send_branch b = true /\ no_send_branches r = true).
      { intros Q. specialize (H1 Q). cbn [no_send_branches] in H1. rewrite andb_true_iff in H1. exact H1. }
      intros s a s' E. apply mbind_ok in E. destruct E as (t & s1 & E1 & E).
      apply test_branch_state in E1. subst s1.
      destruct t; [exact (H (fun Q => proj1 (N Q)) _ _ _ E)|].
      exact (H0 (fun Q => proj2 (N Q)) _ H2 _ _ _ E).
  Qed.
End Keeps.
