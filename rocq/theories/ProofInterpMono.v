(** Leniency options are monotone (C25). *)
From Coq Require Import Ascii String ZArith QArith Bool Lia List.
From Verif Require Import PyBase PyFloat ModelFortran ModelRecords ModelTape ModelNum ModelRecipe ModelInterp.
From Verif Require Import SpecInterp ProofPyBase ProofInterp.
Import ListNotations.
Open Scope Z_scope.

Definition mono {A} (m : M A) : Prop := forall s o' r s1,
  lenient (ps_opts s) o' -> m s = (r, s1) -> (exists a, r = Ok a) \/ o_all (ps_opts s) = true ->
  (exists o1, lenient (ps_opts s1) o1 /\ m (set_opts o' s) = (r, set_opts o1 s1)) /\
  (o_all (ps_opts s) = true -> o_all (ps_opts s1) = true).

(** computations that neither read nor write the options *)
Definition optfree {A} (m : M A) : Prop := forall s o,
  m (set_opts o s) = (fst (m s), set_opts o (snd (m s))) /\ ps_opts (snd (m s)) = ps_opts s.

Lemma optfree_mono {A} (m : M A) : optfree m -> mono m.
Proof.
  intros H s o' r s1 L E _. destruct (H s o') as [H1 H2]. rewrite E in H1, H2. cbn [fst snd] in H1, H2. split.
  - exists o'. rewrite H2. split; [exact L | exact H1].
  - rewrite H2. auto.
Qed.

Lemma mono_bind {A B} (m : M A) (f : A -> M B) : mono m -> (forall a, mono (f a)) -> mono (mbind m f).
Proof.
  intros Hm Hf s o' r s1 L H C. apply mbind_inv in H. destruct H as [(a & s2 & H1 & H2) | (e & H1 & ->)].
  - destruct (Hm s o' _ _ L H1) as ((o1 & L1 & E1) & K1); [left; exists a; reflexivity|].
    destruct (Hf a s2 o1 _ _ L1 H2) as ((o2 & L2 & E2) & K2); [tauto|].
    split; [|auto]. exists o2. split; [exact L2|]. unfold mbind. rewrite E1. exact E2.
  - destruct C as [[b C]|C]; [discriminate C|].
    destruct (Hm s o' _ _ L H1) as ((o1 & L1 & E1) & K1); [auto|].
    split; [|exact K1]. exists o1. split; [exact L1|]. unfold mbind. rewrite E1. reflexivity.
Qed.

Lemma optfree_ret {A} (a : A) : optfree (ret a).
Proof. intros s o. split; reflexivity. Qed.
Lemma optfree_fail {A} e : optfree (@fail A e).
Proof. intros s o. split; reflexivity. Qed.
Lemma optfree_lift {A} (r : result A) : optfree (lift r).
Proof. intros s o. split; reflexivity. Qed.
Lemma optfree_get {A} (f : pstate -> result A) : (forall s o, f (set_opts o s) = f s) -> optfree (fun s => (f s, s)).
Proof. intros H s o. rewrite H. split; reflexivity. Qed.
Lemma mono_ret {A} (a : A) : mono (ret a).
Proof. apply optfree_mono, optfree_ret. Qed.
Lemma mono_fail {A} e : mono (@fail A e).
Proof. apply optfree_mono, optfree_fail. Qed.
Lemma mono_lift {A} (r : result A) : mono (lift r).
Proof. apply optfree_mono, optfree_lift. Qed.
Lemma mono_get {A} (f : pstate -> result A) : (forall s o, f (set_opts o s) = f s) -> mono (fun s => (f s, s)).
Proof. intros H. apply optfree_mono, optfree_get, H. Qed.

Lemma check_mono o o' e a b : lenient o o' ->
  (check_value o e a b = Ok tt \/ o_all o = true) -> check_value o' e a b = check_value o e a b.
Proof.
  intros (Z & N & V & F & A). unfold check_value. rewrite F.
  destruct (negb (same_size a b)); [reflexivity|].
  destruct (if o_fuzzy o then _ else _) as [mm|er]; cbn [bind]; [|reflexivity].
  destruct (negb mm); [reflexivity|].
  generalize (val_eqZ b 0), (has_desired e), (has_incons e). intros z d i H.
  destruct (o_zero o), (o_zero o'); try discriminate (Z eq_refl);
    destruct (o_number o), (o_number o'); try discriminate (N eq_refl);
    destruct (o_varspec o), (o_varspec o'); try discriminate (V eq_refl);
    destruct (o_all o), (o_all o'); try discriminate (A eq_refl);
    destruct z, d, i; cbn [andb] in *; try reflexivity;
    destruct H as [H|H]; discriminate H.
Qed.

(** Without the check for integers the result is the same, unless the check fails. *)
Definition uncast {A} (f : bool -> result A) : Prop := f true = Err InvalidIntegerError \/ f false = f true.
Lemma uncast_const {A} (r : result A) : uncast (fun _ => r).
Proof. now right. Qed.
Lemma uncast_bind {A B} (f : bool -> result A) (g : A -> bool -> result B) : uncast f -> (forall a, uncast (g a)) -> uncast (fun c => bind (f c) (fun a => g a c)).
Proof.
  unfold uncast. intros [F|F] G; [left; now rewrite F|]. rewrite F. destruct (f true) as [a|e]; cbn [bind]; [apply G|now right].
Qed.
Lemma uncast_num_div a b : uncast (fun c => num_div c a b).
Proof.
  unfold uncast, num_div. destruct (n_div a b) as [r|e]; cbn [bind]; [|now right].
  destruct a, b; try (now right). destruct r as [|f|f]; try (now right). destruct (sf_integral f); [now right|now left].
Qed.
Lemma uncast_div x y : uncast (fun c => math_div c x y).
Proof.
  unfold math_div. destruct x; try apply uncast_const. destruct y; try apply uncast_const.
  apply (uncast_bind (fun c => num_div c _ _) (fun r _ => Ok (VNum r))); [apply uncast_num_div|intros; apply uncast_const].
Qed.
Lemma uncast_solve c k v : uncast (fun b => solve b c k v).
Proof.
  unfold solve. destruct (_ && _); [apply uncast_const|].
  apply (uncast_bind (fun _ => math_sub v c) (fun d b => math_div b d k)); [apply uncast_const|intros; apply uncast_div].
Qed.
Lemma uncast_eval sc lu acc : forall depth e, uncast (fun c => eval_expr depth sc lu c acc e).
Proof.
  induction depth as [|n IHn].
  all: assert (Var : forall m x ix, (forall a, uncast (fun c => m c a)) -> uncast (fun c =>
      match (do v <- get_raw sc lu x ix; match v with VExpr a => m c a | _ => Ok (v, vint 0, None) end) with
      | Ok t => Ok t
      | Err er => if missing acc er then Ok (vint 0, vint 1, Some (x, ix)) else Err er end : result lin)).
  1,3: intros m x ix Hm; destruct (get_raw sc lu x ix) as [v|er]; cbn [bind]; [|now right]; destruct v; try (now right);
    destruct (Hm e) as [H|H]; [left; rewrite H; unfold missing; rewrite andb_false_r; reflexivity|right; rewrite H; reflexivity].
  all: induction e; cbn [eval_expr].
  all: repeat first
    [ apply uncast_const
    | exact IHe | exact IHe1 | exact IHe2 | apply uncast_div
    | apply (Var (fun _ _ => Err RecursionError)); intros; apply uncast_const
    | apply (Var (fun c a => eval_expr n sc lu c acc a)); intros; apply IHn
    | match goal with
      | |- uncast (fun c => bind (@?f c) (fun a => @?g c a)) => apply (uncast_bind f (fun a c => g c a)); [|first [intros [[? ?] ?] | intros ?]; cbv beta iota]
      | |- uncast (fun c => if ?b then _ else _) => destruct b
      end ].
Qed.
Lemma uncast_opts {A} (f : bool -> result A) o o' : lenient o o' -> uncast f ->
  f (negb (o_all o')) = f (negb (o_all o)) \/ (o_all o = false /\ f (negb (o_all o)) = Err InvalidIntegerError).
Proof.
  intros (_ & _ & _ & _ & Q) [U|U]; destruct (o_all o), (o_all o'); try discriminate (Q eq_refl); cbn [negb]; auto.
Qed.

Section Mono.
  Variable en : env.

  Lemma optfree_set_var u v : optfree (set_var u v).
  Proof.
    intros s o. destruct u as [x ix]. unfold set_var. destruct ix as [|q ix]; [split; reflexivity|].
    change (ps_loops (set_opts o s)) with (ps_loops s). change (ps_dic (set_opts o s)) with (ps_dic s).
    destruct (bind _ _); split; reflexivity.
  Qed.

  Lemma mono_map_field src e : mono (map_field en src e).
  Proof.
    intros s o' r s1 L H C. unfold map_field in *.
    change (scope_of (set_opts o' s)) with (scope_of s). cbn [set_opts ps_opts].
    assert (Triv : (r, s1) = (r, s) -> (exists o1, lenient (ps_opts s1) o1 /\ (r, set_opts o' s) = (r, set_opts o1 s1)) /\
      (o_all (ps_opts s) = true -> o_all (ps_opts s1) = true)).
    { intros E. injection E as ->. split; [exists o'; auto | auto]. }
    assert (Stop : o_all (ps_opts s) = false -> r = Err InvalidIntegerError -> False).
    { intros F ->. destruct C as [[a C]|C]; [discriminate C|congruence]. }
    destruct (uncast_opts _ _ _ L (uncast_eval (scope_of s) false true (e_depth en) e)) as [U|[U1 U2]].
    2:{ rewrite U2 in H. injection H as <- _. destruct (Stop U1 eq_refl). }
    rewrite U. clear U.
    destruct (eval_expr _ _ _ _ _ _) as [[[c k] [u|]]|er].
    - destruct (uncast_opts _ _ _ L (uncast_solve c k src)) as [U|[U1 U2]].
      2:{ rewrite U2 in H. injection H as <- _. destruct (Stop U1 eq_refl). }
      rewrite U. clear U. destruct (solve _ _ _ _) as [v|er].
      + assert (Mm : mono (run _ <- set_var u v; ret false)).
        { apply mono_bind; [apply optfree_mono, optfree_set_var | intros _; apply mono_ret]. }
        exact (Mm s o' r s1 L H C).
      + injection H as <- <-. apply Triv. reflexivity.
    - destruct (negb (coef0 k)); [injection H as <- <-; apply Triv; reflexivity|].
      destruct (check_value (ps_opts s) e src c) as [[]|er] eqn:CV.
      + rewrite (check_mono _ _ _ _ _ L) by auto. rewrite CV. injection H as <- <-. apply Triv. reflexivity.
      + injection H as <- <-. destruct C as [[a C]|C]; [discriminate C|].
        rewrite (check_mono _ _ _ _ _ L) by auto. rewrite CV. apply Triv. reflexivity.
    - destruct er; injection H as <- <-; apply Triv; reflexivity.
  Qed.

  Lemma mono_map_fields fs : mono (map_fields en fs).
  Proof.
    induction fs as [|[src e] r IH]; cbn [map_fields]; [apply mono_ret|].
    apply mono_bind; [apply mono_map_field|]. intros a. apply mono_bind; [exact IH|]. intros b. apply mono_ret.
  Qed.
  Lemma mono_map_read fs : mono (map_read en fs).
  Proof.
    unfold map_read. generalize 3%nat as n. induction n as [|n IH]; cbn [map_tries]; [apply mono_fail|].
    apply mono_bind; [apply mono_map_fields|]. intros [|]; [exact IH | apply mono_ret].
  Qed.

  Lemma mono_read_with {A} (rd : list str -> nat -> result (A * nat)) : mono (read_with rd).
  Proof.
    apply optfree_mono. intros s o. unfold read_with.
    change (ps_lines (set_opts o s)) with (ps_lines s). change (ps_ofs (set_opts o s)) with (ps_ofs s).
    destruct (skip_blank_lines _ _); [|split; reflexivity].
    destruct (rd _ _) as [[x o']|]; split; reflexivity.
  Qed.
  Lemma mono_write_with r : (forall s o, r (set_opts o s) = r s) -> mono (write_with r).
  Proof. intros E. apply optfree_mono. intros s o. unfold write_with. rewrite E. destruct (r s); split; reflexivity. Qed.
  Lemma mono_modify f : (forall s o, f (set_opts o s) = set_opts o (f s) /\ ps_opts (f s) = ps_opts s) -> mono (modify f).
  Proof.
    intros E. apply optfree_mono. intros s o. destruct (E s o) as [E1 E2]. unfold modify. cbn [fst snd].
    rewrite E1. split; [reflexivity | exact E2].
  Qed.

  Lemma mono_map_write es : mono (map_write en es).
  Proof. apply mono_get. reflexivity. Qed.
  Lemma mono_eval_ctl e : mono (eval_ctl en e).
  Proof. apply mono_get. reflexivity. Qed.
  Lemma mono_spec_write cs : mono (check_spec_write cs).
  Proof. apply (mono_get (fun s => fst (check_spec_write cs s))). reflexivity. Qed.
  Lemma mono_text_read fs : forall full pos, mono (text_read fs full pos).
  Proof.
    induction fs as [|[u len] r IH]; intros full pos; cbn [text_read]; [apply mono_ret|].
    destruct (Nat.leb _ _); [apply mono_fail|].
    apply mono_bind; [|intros _; apply IH].
    destruct u; [apply optfree_mono, optfree_set_var | apply mono_ret].
  Qed.
  Lemma mono_proceed b : mono (should_proceed b).
  Proof.
    apply optfree_mono. intros s o. unfold should_proceed. change (ps_look (set_opts o s)) with (ps_look s).
    destruct (ps_look s) as [n|]; [|split; reflexivity]. destruct (n =? 0); [split; reflexivity|].
    destruct b; split; reflexivity.
  Qed.
  Lemma mono_open u : mono (open_section en u).
  Proof.
    apply optfree_mono. intros s o. destruct u as [x ix]. unfold open_section.
    change (ps_loops (set_opts o s)) with (ps_loops s). change (ps_dic (set_opts o s)) with (ps_dic s).
    destruct (bind _ _) as [[[i n] d]|]; split; reflexivity.
  Qed.
  Lemma mono_close : mono close_section.
  Proof.
    apply optfree_mono. intros s o. unfold close_section. change (ps_up (set_opts o s)) with (ps_up s).
    destruct (ps_up s); split; reflexivity.
  Qed.
  Lemma mono_in_section {A} name (m : M A) : mono m -> mono (in_section en name m).
  Proof.
    intros Hm. unfold in_section. destruct name; [|exact Hm].
    apply mono_bind; [apply mono_open|]. intros _. apply mono_bind; [exact Hm|]. intros a.
    apply mono_bind; [apply mono_close|]. intros _. apply mono_ret.
  Qed.
  Lemma mono_if_proceed {A} (d : A) m : mono m -> mono (if_proceed d m).
  Proof.
    intros Hm. unfold if_proceed. apply mono_bind; [apply mono_proceed|]. intros [|]; [exact Hm | apply mono_ret].
  Qed.
  Lemma mono_set_loops f : mono (modify (fun s => set_loops (f (ps_loops s)) s)).
  Proof. apply mono_modify. intros s o. split; reflexivity. Qed.
  Lemma mono_set_dic f : mono (modify (fun s => set_dic (f (ps_dic s)) s)).
  Proof. apply mono_modify. intros s o. split; reflexivity. Qed.

  Ltac mstep :=
    match goal with
    | |- mono (mbind _ _) => apply mono_bind
    | |- mono (ret _) => apply mono_ret
    | |- mono (fail _) => apply mono_fail
    | |- mono (lift _) => apply mono_lift
    | |- mono (map_read _ _) => apply mono_map_read
    | |- mono (map_write _ _) => apply mono_map_write
    | |- mono (eval_ctl _ _) => apply mono_eval_ctl
    | |- mono (check_spec_read _ _) => apply mono_lift
    | |- mono (check_spec_write _) => apply mono_spec_write
    | |- mono (update_ctrl _) => apply mono_modify; intros; split; reflexivity
    | |- mono (text_read _ _ _) => apply mono_text_read
    | |- mono (read_with _) => apply mono_read_with
    | |- mono (write_with _) => apply mono_write_with; reflexivity
    | |- mono (should_proceed _) => apply mono_proceed
    | |- mono (in_section _ _ _) => apply mono_in_section
    | |- mono (if_proceed _ _) => apply mono_if_proceed
    | |- mono (fun s => (_, s)) => apply mono_get; reflexivity
    | |- mono (let '(_, _) := ?x in _) => destruct x
    | |- mono (if ?b then _ else _) => destruct b
    | |- forall _, _ => intros ?
    end.

  Lemma mono_iterate v body : mono body -> forall l, mono (iterate v l body).
  Proof.
    intros Hb. induction l as [|i r IH]; cbn [iterate]; [apply mono_ret|].
    apply mono_bind; [apply (mono_set_loops (fun l => (v, i) :: ldel v l))|]. intros _.
    apply mono_bind; [exact Hb|]. intros _. exact IH.
  Qed.
  Lemma mono_iterate_l v (body : LM) : (forall ls, mono (body ls)) -> forall l ls, mono (iterate_l v l body ls).
  Proof.
    intros Hb. induction l as [|i r IH]; intros ls; cbn [iterate_l]; [apply mono_ret|].
    apply mono_bind; [apply (mono_set_loops (fun l => (v, i) :: ldel v l))|]. intros _.
    apply mono_bind; [apply Hb|]. intros ls'. apply IH.
  Qed.
  Lemma mono_for v a b body : mono body -> mono (cycle_for_loop en v a b body).
  Proof.
    intros Hb. unfold cycle_for_loop. repeat mstep.
    intros s o' r s1 L H C. change (ps_loops (set_opts o' s)) with (ps_loops s).
    destruct (lget v (ps_loops s)); [exact (@mono_fail unit LoopVariableError s o' r s1 L H C)|].
    revert s o' r s1 L H C. apply mono_bind; [apply mono_iterate; exact Hb|]. intros _.
    destruct (_ <=? _); [apply (mono_set_loops (ldel v)) | apply mono_ret].
  Qed.
  Lemma mono_lfor v a b (body : LM) : (forall ls, mono (body ls)) -> forall ls, mono (cycle_list_loop en v a b body ls).
  Proof.
    intros Hb ls. unfold cycle_list_loop. repeat mstep.
    intros s o' r s1 L H C. change (ps_loops (set_opts o' s)) with (ps_loops s).
    destruct (lget v (ps_loops s)); [exact (@mono_fail _ LoopVariableError s o' r s1 L H C)|].
    revert s o' r s1 L H C. apply mono_bind; [apply mono_iterate_l; exact Hb|]. intros ls'.
    apply mono_bind; [destruct (_ <=? _); [apply (mono_set_loops (ldel v)) | apply mono_ret]|].
    intros _. apply mono_ret.
  Qed.

  Lemma mono_list : (forall i ls, mono (list_item en i ls)) /\ (forall b ls, mono (list_body en b ls)).
  Proof.
    apply lrecipe_mut.
    - intros e [vals pos]. cbn [list_item]. unfold list_expr. case (e_write en).
      + apply mono_bind; [apply mono_map_write |]. intros vs.
        destruct vs as [|v [|]]; try apply mono_fail.
        apply mono_bind; [apply mono_lift |]. intros n. apply mono_ret.
      + destruct (nth_error vals pos); [|apply mono_fail].
        apply mono_bind; [apply mono_map_read |]. intros _. apply mono_ret.
    - intros [vals pos]. apply mono_ret.
    - intros v a b body IH ls. rewrite list_loop_eq. apply mono_lfor. exact IH.
    - intros ls. apply mono_ret.
    - intros i IHi b IHb ls. rewrite list_cons_eq. apply mono_bind; [apply IHi | exact IHb].
  Qed.

  Lemma mono_do_cont head cs f : mono (do_cont en head cs f).
  Proof. unfold do_cont. destruct (e_write en); repeat mstep. Qed.
  Lemma mono_do_text cs f : mono (do_text en cs f).
  Proof. unfold do_text. destruct (e_write en); repeat mstep. Qed.
  Lemma mono_do_dir cs es : mono (do_dir en cs es).
  Proof. unfold do_dir. destruct (e_write en); repeat mstep. Qed.
  Lemma mono_do_intg cs ii jj kij nd : mono (do_intg en cs ii jj kij nd).
  Proof.
    unfold do_intg. destruct (e_write en); repeat mstep.
    apply optfree_mono. intros s o. change (ps_lines (set_opts o s)) with (ps_lines s).
    change (ps_ofs (set_opts o s)) with (ps_ofs s). destruct (skip_blank_lines _ _); split; reflexivity.
  Qed.
  Lemma mono_do_tab1 cs f x y name : mono (do_tab1 en cs f x y name).
  Proof. unfold do_tab1. destruct (e_write en); repeat mstep. Qed.
  Lemma mono_do_tab2 cs f name : mono (do_tab2 en cs f name).
  Proof. unfold do_tab2. destruct (e_write en); repeat mstep. Qed.
  Lemma mono_do_list cs f body name : mono (do_list en cs f body name).
  Proof. unfold do_list. destruct (e_write en); repeat mstep; apply (proj2 mono_list). Qed.
  Lemma mono_do_send : mono (do_send en).
  Proof.
    unfold do_send. destruct (e_write en); [repeat mstep|]. apply optfree_mono. intros s o.
    change (ps_lines (set_opts o s)) with (ps_lines s). change (ps_ofs (set_opts o s)) with (ps_ofs s).
    destruct (skip_blank_lines _ _); [|split; reflexivity].
    destruct (read_send _ _ _) as [[[r c] o']|]; split; reflexivity.
  Qed.
  Lemma mono_do_stop : mono (do_stop en).
  Proof.
    unfold do_stop. destruct (e_write en); [apply (@mono_fail unit)|]. apply optfree_mono. intros s o.
    change (ps_lines (set_opts o s)) with (ps_lines s). change (ps_ofs (set_opts o s)) with (ps_ofs s).
    destruct (get_line _ _); split; reflexivity.
  Qed.
  Lemma mono_introduce x e : mono (introduce x e).
  Proof.
    apply optfree_mono. intros s o. unfold introduce. change (ps_dic (set_opts o s)) with (ps_dic s).
    destruct (dget (KStr x) (ps_dic s)); [destruct (existsb _ _)|]; split; reflexivity.
  Qed.
  Lemma mono_remove : mono remove_working.
  Proof.
    apply optfree_mono. intros s o. unfold remove_working. change (ps_dic (set_opts o s)) with (ps_dic s).
    destruct (dget _ _) as [[]|]; try (split; reflexivity). destruct (del_names _ _); split; reflexivity.
  Qed.

  Lemma lenient_all o o' : lenient o o' -> lenient (all_ignored o) (all_ignored o').
  Proof. intros (Z & N & V & F & A). repeat split; auto. Qed.

  Lemma mono_if c la body : mono body -> mono (if_statement en c la body).
  Proof.
    intros Hb. unfold if_statement. destruct la as [k|]; [|repeat mstep].
    destruct (e_write en); [repeat mstep|]. repeat mstep.
    intros s o' r s1 L H C. change (ps_look (set_opts o' s)) with (ps_look s).
    destruct (ps_look s) eqn:Lk; [exact (@mono_fail bool ValueError s o' r s1 L H C)|].
    cbn zeta in *. set (sb := set_look _ (set_opts _ s)) in H.
    change (set_look (Some a0) (set_opts (all_ignored (ps_opts (set_opts o' s))) (set_opts o' s)))
      with (set_opts (all_ignored o') sb).
    change (ps_up (set_opts o' s)) with (ps_up s).
    destruct (body sb) as [rb s2] eqn:Eb.
    destruct (Hb sb (all_ignored o') rb s2 (lenient_all _ _ L) Eb (or_intror eq_refl)) as ((o2 & L2 & E2) & K2).
    rewrite E2. specialize (K2 eq_refl).
    change (set_look None (set_opts o2 s2)) with (set_opts o2 (set_look None s2)).
    change (ps_up (set_opts o2 (set_look None s2))) with (ps_up (set_look None s2)).
    change (ps_dic (set_opts o2 (set_look None s2))) with (ps_dic (set_look None s2)).
    change (ps_loops (set_opts o2 (set_look None s2))) with (ps_loops (set_look None s2)).
    assert (G : forall X : result bool * pstate, X = (r, s1) ->
      X = (let '(up, d) := unwind (length (ps_up s)) (ps_up (set_look None s2)) (ps_dic (set_look None s2)) in
           match truthvalue en {| sc_dic := d; sc_up := up; sc_loops := ps_loops (set_look None s2) |} c with
           | Ok b => (Ok b, s)
           | Err e => (Err e, set_look None s2)
           end) ->
      (exists o1, lenient (ps_opts s1) o1 /\
        (let '(up, d) := unwind (length (ps_up s)) (ps_up (set_look None s2)) (ps_dic (set_look None s2)) in
           match truthvalue en {| sc_dic := d; sc_up := up; sc_loops := ps_loops (set_look None s2) |} c with
           | Ok b => (Ok b, set_opts o' s)
           | Err e => (Err e, set_opts o2 (set_look None s2))
           end) = (r, set_opts o1 s1)) /\
      (o_all (ps_opts s) = true -> o_all (ps_opts s1) = true)).
    { intros X HX EX. rewrite HX in EX. clear HX.
      destruct (unwind _ _ _) as [up d]. destruct (truthvalue _ _ _); injection EX as -> ->.
      - split; [exists o'; auto | auto].
      - split; [exists o2; auto | auto]. }
    destruct rb as [[]|e].
    - exact (G _ H eq_refl).
    - destruct e; try (injection H as <- <-; split; [exists o2; split; [exact L2 | reflexivity] | auto]).
      exact (G _ H eq_refl).
  Qed.

  Lemma mono_guarded b m : mono m -> mono (guarded b m).
  Proof. intros Hm. unfold guarded. repeat mstep. exact Hm. Qed.

  Theorem exec_mono :
    (forall i, mono (exec en i)) /\ (forall b, mono (exec_block en b)) /\
    (forall b, mono (exec_branch en b) /\ mono (test_branch en b)) /\
    (forall r els, mono els -> mono (exec_branches en r els)).
  Proof.
    apply recipe_mut; intros;
      rewrite ?exec_section_eq, ?exec_for_eq, ?exec_if_eq, ?exec_cons_eq, ?exec_nil_eq, ?exec_branch_eq,
        ?exec_rcons_eq, ?test_branch_eq.
    - apply mono_guarded, mono_do_cont.
    - apply mono_guarded, mono_do_text.
    - apply mono_guarded, mono_do_dir.
    - apply mono_guarded, mono_do_intg.
    - apply mono_guarded, mono_do_tab1.
    - apply mono_guarded, mono_do_tab2.
    - apply mono_guarded, mono_do_list.
    - apply mono_guarded, mono_do_send.
    - apply mono_guarded, mono_do_stop.
    - apply mono_guarded. destruct (negb _); [apply mono_fail|].
      apply mono_bind; [apply mono_open|]. intros _.
      apply mono_bind; [apply (mono_set_dic init_working)|]. intros _.
      apply mono_bind; [exact H|]. intros _.
      apply mono_bind; [apply mono_remove|]. intros _. apply mono_close.
    - apply mono_guarded, mono_for. exact H.
    - apply mono_guarded. apply mono_bind; [apply H|]. intros [|]; [apply H | apply H0; exact H1].
    - apply mono_guarded, mono_introduce.
    - apply mono_ret.
    - apply mono_bind; [apply mono_proceed|]. intros [|]; [|apply mono_ret].
      apply mono_bind; [exact H|]. intros _. exact H0.
    - split; [exact H | apply mono_if; exact H].
    - rewrite exec_rnil_eq. exact H.
    - apply mono_bind; [apply H|]. intros [|]; [apply H | apply H0; exact H1].
  Qed.
End Mono.

Theorem section_monotone en b o o' lines d o1 : lenient o o' ->
  parse_recipe en b o lines = (Ok d, o1) ->
  exists o2, parse_recipe en b o' lines = (Ok d, o2) /\ lenient o1 o2.
Proof.
  intros L H. unfold parse_recipe in *.
  destruct (run_section en b (reset_state o lines [])) as [[[]|e] s1] eqn:E; [|discriminate H].
  injection H as <- <-.
  assert (Mm : mono (run_section en b)).
  { unfold run_section. apply mono_bind; [apply (mono_set_dic init_working)|]. intros _.
    apply mono_bind; [apply exec_mono|]. intros _. apply mono_remove. }
  destruct (Mm (reset_state o lines []) o' _ _ L E (or_introl (ex_intro _ tt eq_refl))) as ((o2 & L2 & E2) & _).
  change (set_opts o' (reset_state o lines [])) with (reset_state o' lines []) in E2. rewrite E2.
  exists o2. split; [reflexivity | exact L2].
Qed.
